(* C120: the numbers, ids, times, codes and texts of received telemetry are those sent. *)
From Coq Require Import String Ascii Bool Arith ZArith NArith Lia List.
From Verif Require Import Json F64 SemTypes Resolved TeleModel TeleSpec.
From Verif Require InferModel.
Import ListNotations.
Open Scope list_scope.

(* ---------- hexadecimal ---------- *)
(* exactly [w] digits before [acc] *)
Fixpoint fixw (w : nat) (n : N) (acc : string) : string :=
  match w with O => acc | S w' => fixw w' (n / 16) (String (hex_digit (n mod 16)) acc) end.
(* two digits for each byte *)
Fixpoint pairs (s : string) (acc : string) : string :=
  match s with
  | EmptyString => acc
  | String c r => String (hex_digit (N_of_ascii c / 16)) (String (hex_digit (N_of_ascii c mod 16)) (pairs r acc))
  end.

Lemma zeros_inner : forall n s, zeros n (String "0" s) = String "0" (zeros n s).
Proof. induction n; intros s; cbn; [reflexivity | now rewrite IHn]. Qed.
Lemma fixw_zero : forall w s, fixw w 0 s = zeros w s.
Proof.
  induction w; intros s; [reflexivity|]. cbn [fixw zeros]. change (0 / 16)%N with 0%N.
  change (hex_digit (0 mod 16)) with "0"%char. rewrite IHw. apply zeros_inner.
Qed.

Lemma digits_fixed : forall w fuel n acc,
  (n < 16 ^ N.of_nat fuel)%N -> (n < 16 ^ N.of_nat w)%N -> 0 < w -> 0 < fuel ->
  zeros (w + String.length acc - String.length (hex_digits fuel n acc)) (hex_digits fuel n acc) = fixw w n acc.
Proof.
  induction w as [|w IH]; intros fuel n acc Hf Hw W F; [lia|]. destruct fuel as [|f]; [lia|].
  cbn [hex_digits fixw]. destruct (N.eqb_spec (n / 16) 0) as [E|E].
  - rewrite E, fixw_zero. f_equal. cbn [String.length]. lia.
  - assert (D : forall k, (n < 16 ^ N.of_nat (S k))%N -> (n / 16 < 16 ^ N.of_nat k)%N).
    { intros k H. apply N.div_lt_upper_bound; [lia|]. replace (16 * 16 ^ N.of_nat k)%N with (16 ^ N.of_nat (S k))%N; [exact H|].
      rewrite Nat2N.inj_succ, N.pow_succ_r'. reflexivity. }
    apply D in Hf. apply D in Hw.
    assert (P : forall k, (n / 16 < 16 ^ N.of_nat k)%N -> 0 < k).
    { intros [|k] H; [change (16 ^ N.of_nat 0)%N with 1%N in H; exfalso; apply E, N.lt_1_r, H | lia]. }
    rewrite <- (IH f (n / 16)%N (String (hex_digit (n mod 16)) acc) Hf Hw (P w Hw) (P f Hf)).
    f_equal. cbn [String.length]. lia.
Qed.

Lemma format_hex_fixed : forall w n, (n < 16 ^ N.of_nat w)%N -> 0 < w -> format_hex w n = fixw w n "".
Proof.
  intros w n H W. unfold format_hex.
  rewrite <- (digits_fixed w (S (N.to_nat (N.log2 n))) n ""); [| |exact H|exact W|lia].
  - cbn [String.length]. rewrite Nat.add_0_r. reflexivity.
  - rewrite Nat2N.inj_succ, N2Nat.id. destruct (N.eq_dec n 0) as [-> |Z]; [reflexivity|].
    destruct (N.log2_spec n ltac:(lia)) as [_ L].
    apply N.lt_le_trans with (1 := L). apply N.pow_le_mono_l. lia.
Qed.

Lemma byte_split : forall a c, let n := (a * 256 + N_of_ascii c)%N in
  (n mod 16 = N_of_ascii c mod 16 /\ (n / 16) mod 16 = N_of_ascii c / 16 /\ n / 16 / 16 = a)%N.
Proof.
  intros a c n. assert (B := N_ascii_bounded c). subst n.
  assert (E : (a * 256 + N_of_ascii c = (a * 16 + N_of_ascii c / 16) * 16 + N_of_ascii c mod 16)%N).
  { rewrite (N.div_mod (N_of_ascii c) 16) at 1 by lia. lia. }
  assert (M : (N_of_ascii c mod 16 < 16)%N) by (apply N.mod_lt; lia).
  assert (Q : (N_of_ascii c / 16 < 16)%N) by (apply N.div_lt_upper_bound; lia).
  rewrite E. rewrite N.div_add_l by lia. rewrite (N.div_small (N_of_ascii c mod 16) 16) by exact M.
  split; [|split].
  - rewrite N.add_comm, N.mod_add by lia. apply N.mod_small, M.
  - rewrite N.add_0_r. rewrite N.add_comm, N.mod_add by lia. apply N.mod_small, Q.
  - rewrite N.add_0_r. rewrite N.div_add_l by lia. rewrite N.div_small by exact Q. lia.
Qed.

Lemma fixed_pairs : forall s w a acc,
  fixw (w + 2 * String.length s) (from_be_bytes a s) acc = fixw w a (pairs s acc).
Proof.
  induction s as [|c s IH]; intros w a acc.
  - cbn [String.length from_be_bytes pairs]. rewrite Nat.mul_0_r, Nat.add_0_r. reflexivity.
  - cbn [String.length from_be_bytes pairs].
    replace (w + 2 * S (String.length s)) with (S (S w) + 2 * String.length s) by lia.
    rewrite IH. destruct (byte_split a c) as [A [B C]]. cbn [fixw]. rewrite A, B, C. reflexivity.
Qed.

Lemma be_bound : forall s a k, (a < 256 ^ N.of_nat k)%N -> (from_be_bytes a s < 256 ^ N.of_nat (k + String.length s))%N.
Proof.
  induction s as [|c s IH]; intros a k H.
  - cbn. rewrite Nat.add_0_r. exact H.
  - cbn [from_be_bytes String.length]. replace (k + S (String.length s)) with (S k + String.length s) by lia.
    apply IH. rewrite Nat2N.inj_succ, N.pow_succ_r'. assert (B := N_ascii_bounded c). lia.
Qed.

Lemma pow_256 : forall k, (256 ^ N.of_nat k = 16 ^ N.of_nat (2 * k))%N.
Proof.
  intros k. rewrite Nat2N.inj_mul. rewrite N.pow_mul_r. reflexivity.
Qed.

Lemma hex_of_bytes : forall s, s <> ""%string -> format_hex (2 * String.length s) (from_be_bytes 0 s) = pairs s "".
Proof.
  intros s H. rewrite format_hex_fixed.
  - exact (fixed_pairs s 0 0 "").
  - rewrite <- pow_256. apply (be_bound s 0 0). reflexivity.
  - destruct s; [congruence | cbn; lia].
Qed.

Lemma digit_of_byte : forall c,
  is_digit (nat_of_ascii c / 16) (hex_digit (N_of_ascii c / 16)) /\
  is_digit (nat_of_ascii c mod 16) (hex_digit (N_of_ascii c mod 16)).
Proof.
  unfold is_digit. intros [b0 b1 b2 b3 b4 b5 b6 b7];
    destruct b0, b1, b2, b3, b4, b5, b6, b7; split; vm_compute; reflexivity.
Qed.

Lemma pairs_text : forall s, hex_text s (pairs s "").
Proof.
  induction s as [|c s IH]; cbn [pairs]; [constructor|].
  destruct (digit_of_byte c) as [A B]. constructor; assumption.
Qed.

(* An id is shown byte by byte in lower-case hexadecimal; one of another length is not shown. *)
Theorem C120_ids : forall id, id_text 8 id (span_id_hex id) /\ id_text 16 id (trace_id_hex id).
Proof.
  intros id. unfold span_id_hex, trace_id_hex, id_text.
  split.
  - destruct (Nat.eqb_spec (String.length id) 8) as [E|E]; [left; split; [exact E|] | right; split; [exact E | reflexivity]].
    change 16 with (2 * 8). rewrite <- E, hex_of_bytes; [apply pairs_text | intros ->; discriminate].
  - destruct (Nat.eqb_spec (String.length id) 16) as [E|E]; [left; split; [exact E|] | right; split; [exact E | reflexivity]].
    change 32 with (2 * 16). rewrite <- E, hex_of_bytes; [apply pairs_text | intros ->; discriminate].
Qed.
Print Assumptions C120_ids.

Lemma digit_unique : forall n m c, is_digit n c -> is_digit m c -> n = m.
Proof.
  unfold is_digit, digits16. intros n m c Hn Hm.
  do 16 (destruct n as [|n]; [cbn in Hn; injection Hn as <-;
    do 16 (destruct m as [|m]; [first [reflexivity | discriminate Hm]|]); discriminate Hm|]).
  discriminate Hn.
Qed.

Lemma hex_text_inj : forall s t, hex_text s t -> forall s', hex_text s' t -> s = s'.
Proof.
  intros s t H. induction H as [|c s h l t A B H IH]; intros s' H'; inversion H' as [|c' s2 h' l' t' A' B' H2]; subst; [reflexivity|].
  f_equal; [|apply IH; assumption].
  assert (E : nat_of_ascii c = nat_of_ascii c').
  { rewrite (Nat.div_mod (nat_of_ascii c) 16), (Nat.div_mod (nat_of_ascii c') 16) by lia.
    rewrite (digit_unique _ _ _ A A'), (digit_unique _ _ _ B B'). reflexivity. }
  rewrite <- (ascii_nat_embedding c), <- (ascii_nat_embedding c'), E. reflexivity.
Qed.

Lemma hex_text_length : forall s t, hex_text s t -> String.length t = 2 * String.length s.
Proof. intros s t H. induction H; cbn [String.length]; lia. Qed.

(* Different ids have different texts. *)
Theorem C120_ids_distinct : forall a b,
  (String.length a = 8 -> span_id_hex a = span_id_hex b -> a = b) /\
  (String.length a = 16 -> trace_id_hex a = trace_id_hex b -> a = b).
Proof.
  intros a b. assert (G : forall n x y, 0 < n -> id_text n a x -> id_text n b y -> String.length a = n -> x = y -> a = b).
  { intros n x y Hn Ha Hb L E. subst y. destruct Ha as [[_ Ha]|[N _]]; [|congruence].
    destruct Hb as [[_ Hb]|[_ Hb]]; [exact (hex_text_inj _ _ Ha _ Hb)|].
    apply hex_text_length in Ha. rewrite Hb in Ha. cbn in Ha. lia. }
  destruct (C120_ids a) as [A1 A2]. destruct (C120_ids b) as [B1 B2].
  split; intros L E; [apply (G 8 _ _ ltac:(lia) A1 B1 L E) | apply (G 16 _ _ ltac:(lia) A2 B2 L E)].
Qed.
Print Assumptions C120_ids_distinct.

(* ---------- points ---------- *)
Lemma forall2_map : forall A B (R : A -> B -> Prop) (f : A -> B), (forall x, R x (f x)) -> forall l, Forall2 R l (map f l).
Proof. intros A B R f H l. induction l; constructor; auto. Qed.

Lemma number_sent : forall v, as_json v (number_json v).
Proof.
  intros [[d|z]|]; try constructor. cbn. unfold InferModel.json_of_double.
  destruct (decode d) eqn:E; [apply aj_not_finite | apply aj_not_finite | apply (aj_finite d z E)]; intros q; congruence.
Qed.

Lemma exemplar_sent : forall utc e, exemplar_as_sent utc e (exemplar_sample utc e).
Proof.
  intros utc e. unfold exemplar_as_sent. cbn.
  split; [apply number_sent|]. split; [|split; [apply C120_ids | apply C120_ids]].
  unfold time_text, unix_nanos_to_utc. change (2 ^ 63)%N with 9223372036854775808%N.
  destruct (N.ltb_spec (oe_time e) 9223372036854775808); split; intros H'; try reflexivity; lia.
Qed.

(* Each point is reported in its place, with its numbers, counts, bounds and flags, and its exemplars with theirs. *)
Theorem C120_points : forall utc,
  (forall l, Forall2 (number_as_sent utc) l (number_points utc l)) /\
  (forall l, Forall2 (histogram_as_sent utc) l (histogram_points utc l)) /\
  (forall l, Forall2 (exponential_as_sent utc) l (exponential_points utc l)).
Proof.
  intros utc. split; [|split]; intros l; apply forall2_map; intros p.
  - split; [apply number_sent|]. split; [reflexivity|]. apply forall2_map, exemplar_sent.
  - split; [reflexivity|]. split; [reflexivity|]. apply forall2_map, exemplar_sent.
  - split; [reflexivity|]. split; [|split; [reflexivity | apply forall2_map, exemplar_sent]].
    cbn. destruct (oz_positive p) as [[a b]|], (oz_negative p) as [[c d]|]; reflexivity.
Qed.
Print Assumptions C120_points.

(* ---------- logs ---------- *)
Lemma log_id_sent : forall n id text, 0 < n -> id_text n id text -> log_id n id (some_id text).
Proof.
  intros n id text Hn H. unfold some_id. destruct H as [[L H]|[L ->]]; [|exact L].
  destruct (String.eqb_spec text "") as [E|E]; [|split; assumption].
  apply hex_text_length in H. rewrite E in H. cbn in H. lia.
Qed.

(* A log keeps its severity, and its ids when they have their lengths; it has a body when it was sent one. *)
Theorem C120_log_partial : forall quoted other l, log_as_received l (log_record_sample quoted other l).
Proof.
  intros quoted other l. unfold log_as_received. cbn.
  split; [reflexivity|]. split; [reflexivity|].
  split; [apply log_id_sent; [lia | apply C120_ids]|]. split; [apply log_id_sent; [lia | apply C120_ids]|].
  destruct (lr_body l) as [[]|]; cbn; split; intros H; try discriminate; try (now left); try (now right);
    destruct H as [H|H]; try discriminate; reflexivity.
Qed.
Print Assumptions C120_log_partial.

(* The text of a log is not the one sent, however strings are quoted. *)
Theorem C120_body_refuted : forall quoted other,
  ~ (forall l s, lr_body l = Some (InferModel.AnyString s) -> ls_body (log_record_sample quoted other l) = Some s).
Proof.
  intros quoted other H.
  specialize (H {| lr_severity := 9; lr_severity_text := "INFO"; lr_body := Some (InferModel.AnyString "started");
                   lr_trace := ""; lr_span := "" |} "started"%string eq_refl).
  discriminate.
Qed.
Print Assumptions C120_body_refuted.

(* Numbers that are sent may be lost: NaN and the infinities are reported like a missing value. *)
Theorem C120_number_refuted : ~ (forall v, v <> None -> number_json v <> JNull).
Proof. intros H. apply (H (Some (ODouble 9221120237041090560))); [discriminate | vm_compute; reflexivity]. Qed.
Print Assumptions C120_number_refuted.

(* ---------- spans and scopes ---------- *)
(* Known codes and kinds are kept, with the message; an unknown code is unset, an unspecified or unknown kind internal. *)
Theorem C120_codes : forall z,
  (forall m c t, status_sample (Some (z, m)) = Some (c, t) ->
     t = m /\ ((0 <= z <= 2)%Z -> code_number c = z) /\ (~ (0 <= z <= 2)%Z -> c = StUnset)) /\
  status_sample None = None /\ (forall m, status_sample (Some (z, m)) <> None) /\
  ((1 <= z <= 5)%Z -> kind_number z (kind_sample z)) /\ (~ (1 <= z <= 5)%Z -> kind_sample z = SkInternal).
Proof.
  intros z. split; [|split; [reflexivity | split; [discriminate | split]]].
  - intros m c t H. cbn in H. injection H as <- <-. split; [reflexivity|]. unfold otlp_code.
    destruct (Z.eqb_spec z 1) as [-> |A]; [split; [reflexivity | lia]|].
    destruct (Z.eqb_spec z 2) as [-> |B]; [split; [reflexivity | lia]|]. cbn. split; [lia | reflexivity].
  - intros H. assert (E : (z = 1 \/ z = 2 \/ z = 3 \/ z = 4 \/ z = 5)%Z) by lia.
    destruct E as [-> |[-> |[-> |[-> | ->]]]]; constructor.
  - intros H. unfold kind_sample, otlp_kind.
    destruct (Z.eqb_spec z 1); [lia|]. destruct (Z.eqb_spec z 2); [lia|]. destruct (Z.eqb_spec z 3); [lia|].
    destruct (Z.eqb_spec z 4); [lia|]. destruct (Z.eqb_spec z 5); [lia|]. reflexivity.
Qed.
Print Assumptions C120_codes.

(* Two spans with different known kinds are told apart only if they were sent with a kind: unspecified looks internal. *)
Theorem C120_kind_refuted : ~ (forall a b, kind_sample a = kind_sample b -> (0 <= a <= 5)%Z -> (0 <= b <= 5)%Z -> a = b).
Proof. intros H. specialize (H 0%Z 1%Z eq_refl ltac:(lia) ltac:(lia)). discriminate. Qed.
Print Assumptions C120_kind_refuted.

(* A scope is there when it or its schema URL was sent, with its name, version, URL and number of dropped attributes. *)
Theorem C120_scope : forall scope url,
  (scope_meta_sample scope url = None <-> scope = None /\ url = ""%string) /\
  (forall m, scope_meta_sample scope url = Some m ->
     me_url m = url /\
     match scope with
     | Some s => (me_name m, me_version m, me_dropped m) = s
     | None => (me_name m, me_version m, me_dropped m) = (""%string, ""%string, 0%N)
     end).
Proof.
  intros [[[n v] d]|] url; cbn.
  - split; [split; [discriminate | intros [H _]; discriminate]|]. intros m H. injection H as <-. split; reflexivity.
  - destruct (String.eqb_spec url "") as [E|E].
    + split; [split; [intros _; split; [reflexivity | exact E] | reflexivity] | discriminate].
    + split; [split; [discriminate | intros [_ H]; congruence]|]. intros m H. injection H as <-. split; reflexivity.
Qed.
Print Assumptions C120_scope.

Definition an_id : string := String "000" (String "017" (String "171" (String "255" (String "001" (String "035" (String "128" (String "009" EmptyString))))))).
Example C120_case :
  span_id_hex an_id = "0011abff01238009"%string /\
  trace_id_hex (an_id ++ an_id) = "0011abff012380090011abff01238009"%string /\
  span_id_hex "short" = ""%string /\
  number_points (fun _ => "2024-01-01T00:00:00+00:00"%string)
    [{| np_value := Some (OInt 7); np_flags := 1;
        np_exemplars := [{| oe_value := Some (ODouble 4609434218613702656); oe_time := 1704067200000000000;
                            oe_span := an_id; oe_trace := "" |}] |}] =
    [{| ns_value := JNum (NInt 7); ns_flags := 1;
        ns_exemplars := [{| sx_value := JNum (NFloat 4609434218613702656); sx_time := "2024-01-01T00:00:00+00:00";
                            sx_span := "0011abff01238009"; sx_trace := "" |}] |}] /\
  ls_span (log_record_sample (fun s => s) (fun _ => ""%string)
    {| lr_severity := 9; lr_severity_text := "INFO"; lr_body := None; lr_trace := "x"; lr_span := an_id |}) =
    Some "0011abff01238009"%string.
Proof. repeat match goal with |- _ /\ _ => split end; vm_compute; reflexivity. Qed.
