(* Lemmas for C45, C74: examples, accumulation, the registry file. *)
From Coq Require Import String Ascii Bool Arith ZArith NArith Lia Permutation Sorted List.
Import ListNotations.
From Verif Require Import Base BaseProofs BaseProofs2 Json F64 SemTypes Resolved DefModel InferModel InferSpec.
Local Open Scope string_scope.

(* ---------- examples ---------- *)
Lemma f_eqb_iff x y : f_eqb x y = true <-> x = y /\ x <> FNaN.
Proof.
  unfold f_eqb, f_cmp. destruct x as [|[]|z], y as [|[]|w]; try (split; [discriminate|intros (H & N); congruence]);
    try (split; [intros _; split; congruence|reflexivity]).
  destruct (Z.compare_spec z w) as [->|L|L].
  - split; [intros _; split; congruence|reflexivity].
  - split; [discriminate|]. intros (H & _). injection H as ->. lia.
  - split; [discriminate|]. intros (H & _). injection H as ->. lia.
Qed.
Lemma of_eqb_iff a b : of_eqb a b = true <-> same_double a b.
Proof.
  unfold of_eqb, same_double, is_nan. destruct (decode a) eqn:Ea, (decode b) eqn:Eb; cbn [andb]; rewrite ?f_eqb_iff;
    try (split; [intros (H & N); try congruence; right; split; congruence|intros [(H & H')|(H & N)]; try congruence; split; congruence]).
  split; [left; auto|reflexivity].
Qed.
Lemma push_cases {A} (eqb : A -> A -> bool) (same : A -> A -> Prop) l x : (forall a b, eqb a b = true <-> same a b) ->
  (push eqb l x = l /\ (5 <= length l \/ exists y, In y l /\ same y x)) \/
  (push eqb l x = app l [x] /\ length l < 5 /\ forall y, In y l -> ~ same y x).
Proof.
  intros H. unfold push, max_examples. destruct (Nat.ltb_spec (length l) 5) as [L|L]; cbn [andb].
  - destruct (existsb (fun y => eqb y x) l) eqn:E; cbn [negb].
    + left. split; [reflexivity|]. right. apply existsb_exists in E as (y & I & Ey). exists y. split; [exact I|apply H, Ey].
    + right. split; [reflexivity|]. split; [exact L|]. intros y I S0. apply H in S0. assert (X : existsb (fun y => eqb y x) l = true) by (apply existsb_exists; exists y; auto). congruence.
  - left. split; [reflexivity|]. left. exact L.
Qed.
Lemma kept_fold {A} (eqb : A -> A -> bool) (same : A -> A -> Prop) : (forall a b, eqb a b = true <-> same a b) ->
  forall l before, kept same before l (fold_left (push eqb) l before).
Proof.
  intros H l. induction l as [|x l IH]; intros before; cbn [fold_left]; [constructor|].
  destruct (push_cases eqb same before x H) as [(E & C)|(E & C & D)]; rewrite E.
  - apply kp_skip; [exact C|apply IH].
  - apply kp_take; [exact C|exact D|apply IH].
Qed.
Lemma push_nonempty {A} (eqb : A -> A -> bool) l x : l <> [] -> push eqb l x <> [].
Proof. unfold push. destruct (_ && _); [|auto]. intros _ H. destruct l; discriminate. Qed.
Section Examples.
  Variable to_f64 : Z -> N.
  Notation add := (add_example to_f64).
  Lemma step_shape {A} (eqb : A -> A -> bool) (one : A -> examples) (many : list A -> examples) (read : json -> option A) :
    (forall x v, add_to_existing to_f64 (one x) v = match read v with Some n => if eqb x n then one x else many [x; n] | None => one x end) ->
    (forall l v, add_to_existing to_f64 (many l) v = match read v with Some n => many (push eqb l n) | None => many l end) ->
    read JNull = None ->
    forall vs l, l <> [] -> fold_left add vs (Some (one_or_many one many l)) =
      Some (one_or_many one many (fold_left (push eqb) (flat_map (fun v => match read v with Some x => [x] | None => [] end) vs) l)).
  Proof.
    intros H1 H2 H0 vs. induction vs as [|v vs IH]; intros l Nl; cbn [fold_left flat_map]; [reflexivity|].
    assert (E : add (Some (one_or_many one many l)) v = Some (one_or_many one many (match read v with Some x => push eqb l x | None => l end))).
    { assert (G : Some (add_to_existing to_f64 (one_or_many one many l) v) = Some (one_or_many one many (match read v with Some x => push eqb l x | None => l end))).
      { f_equal. destruct l as [|x [|y l]]; [congruence| |].
        - cbn [one_or_many]. rewrite H1. destruct (read v) as [n|]; [|reflexivity]. unfold push. cbn [length existsb]. change (Nat.ltb 1 max_examples) with true. rewrite orb_false_r. destruct (eqb x n); reflexivity.
        - cbn [one_or_many]. rewrite H2. destruct (read v) as [n|]; [|reflexivity]. unfold push. destruct (_ && _); reflexivity. }
      destruct v; try exact G. cbn [add_example]. rewrite H0. reflexivity. }
    rewrite E. destruct (read v) as [x|]; cbn [app fold_left]; apply IH; [apply push_nonempty; exact Nl|exact Nl].
  Qed.
  Lemma as_i64_eq z : as_i64 (JNum (NInt z)) = if (Z.leb (- 2 ^ 63) z && Z.ltb z (2 ^ 63))%Z then Some z else None.
  Proof.
    unfold DefModel.as_i64. change (- 2 ^ 63)%Z with (-9223372036854775808)%Z. change (2 ^ 63)%Z with (9223372036854775808)%Z.
    destruct (Z.leb_spec (-9223372036854775808) z) as [A|A]; cbn [andb]; [|reflexivity].
    destruct (Z.leb_spec z 9223372036854775807) as [B|B]; destruct (Z.ltb_spec z 9223372036854775808) as [C|C]; try reflexivity; lia.
  Qed.
  Lemma as_i64_some z : is_i64 z -> as_i64 (JNum (NInt z)) = Some z.
  Proof.
    unfold is_i64. intros (A & B). rewrite as_i64_eq. apply Z.leb_le in A. apply Z.ltb_lt in B. rewrite A, B. reflexivity.
  Qed.
  Lemma as_i64_none z : ~ is_i64 z -> as_i64 (JNum (NInt z)) = None.
  Proof.
    unfold is_i64. intros N. rewrite as_i64_eq. destruct (Z.leb_spec (- 2 ^ 63) z) as [A|A]; destruct (Z.ltb_spec z (2 ^ 63)) as [B|B]; cbn [andb]; try reflexivity.
    destruct N. split; assumption.
  Qed.
  Lemma i64_dec z : {is_i64 z} + {~ is_i64 z}.
  Proof.
    unfold is_i64. destruct (Z_le_dec (- 2 ^ 63) z) as [A|A]; [|right; intros (X & _); contradiction].
    destruct (Z_lt_dec z (2 ^ 63)) as [B|B]; [left; split; assumption|right; intros (_ & X); contradiction].
  Qed.
  Lemma fold_none vs : (forall v, In v vs -> ~ plain v) -> fold_left add vs None = None.
  Proof.
    induction vs as [|v vs IH]; intros H; cbn [fold_left]; [reflexivity|]. assert (E : add None v = None).
    { specialize (H v (or_introl eq_refl)). destruct v; cbn in H; try reflexivity; destruct (H Logic.I). }
    rewrite E. apply IH. intros w Hw. apply H. right. exact Hw.
  Qed.
  Lemma flat_map_ext' {A B} (f g : A -> list B) l : (forall x, f x = g x) -> flat_map f l = flat_map g l.
  Proof. intros H. induction l as [|x l IH]; [reflexivity|]. cbn. rewrite H, IH. reflexivity. Qed.
  Lemma bool_eqb_iff a b : Bool.eqb a b = true <-> a = b.
  Proof. apply Bool.eqb_true_iff. Qed.
  Lemma illustrated_fold vs : illustrated to_f64 vs (fold_left add vs None).
  Proof.
    assert (S0 : (forall v, In v vs -> ~ plain v) \/ exists a v r, vs = app a (v :: r) /\ (forall w, In w a -> ~ plain w) /\ plain v).
    { induction vs as [|v vs IH]; [left; intros v []|]. assert (D : plain v \/ ~ plain v) by (destruct v; cbn; auto). destruct D as [P|N].
      - right. exists [], v, vs. split; [reflexivity|]. split; [intros w []|exact P].
      - destruct IH as [H|(a & w & r & -> & H & P)].
        + left. intros w [<-|I]; [exact N|apply H, I].
        + right. exists (v :: a), w, r. split; [reflexivity|]. split; [|exact P]. intros u [<-|I]; [exact N|apply H, I]. }
    destruct S0 as [H|(a & v & r & -> & H & P)].
    - rewrite fold_none by exact H. apply il_none, H.
    - rewrite fold_left_app, (fold_none a H). cbn [fold_left]. destruct v as [|b|n|s|l|l]; try destruct P.
      + change (add None (JBool b)) with (Some (one_or_many EBool EBools [b])).
        rewrite (step_shape Bool.eqb EBool EBools (fun v => match v with JBool b => Some b | _ => None end)); [|intros x w; destruct w; reflexivity|intros l w; destruct w; reflexivity|reflexivity|discriminate].
        eapply il_bool; [reflexivity|exact H|]. unfold bools. rewrite (flat_map_ext' (fun v => match v with JBool b0 => [b0] | _ => [] end) (fun v => match (match v with JBool b0 => Some b0 | _ => None end) with Some x => [x] | None => [] end)) by (intros w; destruct w; reflexivity).
        apply kept_fold. exact bool_eqb_iff.
      + assert (Dr : doubles to_f64 r = flat_map (fun v => match as_f64 to_f64 v with Some x => [x] | None => [] end) r).
        { apply flat_map_ext'. intros w. destruct w as [| |[z|d]| | |]; reflexivity. }
        assert (Dd : forall d, kept same_double [d] (doubles to_f64 r) (fold_left (push of_eqb) (flat_map (fun v => match as_f64 to_f64 v with Some x => [x] | None => [] end) r) [d])).
        { intros d. rewrite Dr. apply kept_fold. exact of_eqb_iff. }
        destruct n as [z|d].
        * destruct (i64_dec z) as [I|N].
          -- assert (E : add None (JNum (NInt z)) = Some (one_or_many EInt EInts [z])). { cbn [add_example]. rewrite (as_i64_some z I). reflexivity. }
             rewrite E. rewrite (step_shape Z.eqb EInt EInts DefModel.as_i64); [|intros x w; destruct w; reflexivity|intros l w; destruct w; reflexivity|reflexivity|discriminate].
             eapply il_int; [reflexivity|exact I|exact H|].
             assert (Ei : ints r = flat_map (fun v => match as_i64 v with Some x => [x] | None => [] end) r).
             { apply flat_map_ext'. intros w. destruct w as [| |[y|d]| | |]; try reflexivity. rewrite as_i64_eq. destruct (_ && _); reflexivity. }
             rewrite Ei. apply kept_fold. exact Z.eqb_eq.
          -- assert (E : add None (JNum (NInt z)) = Some (one_or_many EDouble EDoubles [to_f64 z])). { cbn [add_example]. rewrite (as_i64_none z N). reflexivity. }
             rewrite E. rewrite (step_shape of_eqb EDouble EDoubles (as_f64 to_f64)); [|intros x w; destruct w; reflexivity|intros l w; destruct w; reflexivity|reflexivity|discriminate].
             eapply il_large; [reflexivity|exact N|exact H|apply Dd].
        * change (add None (JNum (NFloat d))) with (Some (one_or_many EDouble EDoubles [d])).
          rewrite (step_shape of_eqb EDouble EDoubles (as_f64 to_f64)); [|intros x w; destruct w; reflexivity|intros l w; destruct w; reflexivity|reflexivity|discriminate].
          eapply il_double; [reflexivity|exact H|apply Dd].
      + change (add None (JStr s)) with (Some (one_or_many EString EStrings [s])).
        rewrite (step_shape String.eqb EString EStrings (fun v => match v with JStr b => Some b | _ => None end)); [|intros x w; destruct w; reflexivity|intros l w; destruct w; reflexivity|reflexivity|discriminate].
        eapply il_text; [reflexivity|exact H|]. unfold texts. rewrite (flat_map_ext' (fun v => match v with JStr b0 => [b0] | _ => [] end) (fun v => match (match v with JStr b0 => Some b0 | _ => None end) with Some x => [x] | None => [] end)) by (intros w; destruct w; reflexivity).
        apply kept_fold. intros x y. apply String.eqb_eq.
  Qed.
End Examples.

(* ---------- what is kept ---------- *)
Lemma kept_longer {A} (same : A -> A -> Prop) before l r : kept same before l r -> length before <= length r.
Proof. intros H. induction H as [b|b x l r _ _ IH|b x l r _ _ _ IH]; [lia|exact IH|]. rewrite app_length in IH. lia. Qed.
Lemma kept_facts {A} (same : A -> A -> Prop) before l r : kept same before l r -> length before <= 5 -> (forall i j a b, nth_error before i = Some a -> nth_error before j = Some b -> i < j -> ~ same a b) ->
  length r <= 5 /\ (forall i j a b, nth_error r i = Some a -> nth_error r j = Some b -> i < j -> ~ same a b) /\ (forall x, In x before -> In x r) /\ (forall x, In x r -> In x before \/ In x l) /\
  (length r = 5 \/ forall x, In x l -> exists y, In y r /\ (y = x \/ same y x)).
Proof.
  intros H. induction H as [before|before x l r C Hk IH|before x l r C D Hk IH]; intros L P.
  - split; [exact L|]. split; [exact P|]. split; [auto|]. split; [auto|]. right. intros x [].
  - destruct (IH L P) as (Ha & Hb & Ci & E & F). split; [exact Ha|]. split; [exact Hb|]. split; [exact Ci|]. split; [intros y Hy; destruct (E y Hy); [left|right; right]; assumption|].
    destruct F as [F|F]; [left; exact F|]. destruct C as [C|(y & I & Sy)].
    + left. assert (X : length before <= length r) by (eapply kept_longer; exact Hk). lia.
    + right. intros z [<-|I']; [|apply F, I']. exists y. split; [apply Ci, I|right; exact Sy].
  - assert (L' : length (app before [x]) <= 5) by (rewrite app_length; cbn; lia).
    assert (P' : forall i j a b, nth_error (app before [x]) i = Some a -> nth_error (app before [x]) j = Some b -> i < j -> ~ same a b).
    { intros i j a b Ha Hb Lt. destruct (Nat.lt_ge_cases j (length before)) as [Lj|Lj].
      - rewrite nth_error_app1 in Ha, Hb by lia. eapply P; eassumption.
      - assert (Lj' : j < length (app before [x])) by (apply nth_error_Some; congruence). rewrite app_length in Lj'. cbn in Lj'.
        rewrite nth_error_app1 in Ha by lia. rewrite nth_error_app2 in Hb by lia. replace (j - length before) with 0 in Hb by lia. cbn in Hb. injection Hb as <-. apply D. eapply nth_error_In; exact Ha. }
    destruct (IH L' P') as (Ha & Hb & Ci & E & F). split; [exact Ha|]. split; [exact Hb|]. split; [intros y Hy; apply Ci, in_app_iff; left; exact Hy|]. split.
    + intros y Hy. destruct (E y Hy) as [I|I]; [|right; right; exact I]. apply in_app_iff in I as [I|[<-|[]]]; [left; exact I|right; left; reflexivity].
    + destruct F as [F|F]; [left; exact F|]. right. intros z [<-|I]; [|apply F, I]. exists x. split; [apply Ci, in_app_iff; right; left; reflexivity|left; reflexivity].
Qed.

(* ---------- accumulation ---------- *)
Lemma slookup_insert {V} k (v : V) m k' : slookup k' (sinsert k v m) = if String.eqb k' k then Some v else slookup k' m.
Proof.
  unfold slookup, sinsert. destruct (String.eqb_spec k' k) as [->|N]; [apply (lookup_insert_eq _ string_eqb_spec)|apply (lookup_insert_ne _ string_eqb_spec), N].
Qed.
Lemma sinsert_nodup {V} k (v : V) m : NoDup (map fst m) -> NoDup (map fst (sinsert k v m)).
Proof. apply (insert_nodup _ string_eqb_spec). Qed.
Lemma fold_inv {A B} (P : A -> Prop) (f : A -> B -> A) l : (forall a b, P a -> P (f a b)) -> forall a, P a -> P (fold_left f l a).
Proof. intros H. induction l as [|x l IH]; intros a Ha; cbn; [exact Ha|]. apply IH, H, Ha. Qed.
Section Acc.
  Variable to_f64 : Z -> N.
  Notation accumulate := (accumulate to_f64).
  Definition step (o : option iacc) (a : iattr) : option iacc :=
    Some (match o with None => from_sample to_f64 a | Some c => update_example to_f64 c (ia_value a) end).
  Definition named_as (n : string) (a : iattr) : bool := String.eqb (ia_name a) n.
  Lemma accumulate_lookup m a n : slookup n (accumulate m a) = if named_as n a then step (slookup n m) a else slookup n m.
  Proof.
    unfold InferModel.accumulate, named_as, step. destruct (slookup (ia_name a) m) as [c|] eqn:E; rewrite slookup_insert, String.eqb_sym;
      (destruct (String.eqb_spec (ia_name a) n) as [<-|N]; [rewrite E; reflexivity|reflexivity]).
  Qed.
  Lemma accumulate_nodup m a : NoDup (map fst m) -> NoDup (map fst (accumulate m a)).
  Proof. intros H. unfold InferModel.accumulate. destruct (slookup (ia_name a) m); apply sinsert_nodup, H. Qed.
  Lemma accumulates_lookup l : forall m n, slookup n (fold_left accumulate l m) = fold_left step (filter (named_as n) l) (slookup n m).
  Proof.
    induction l as [|a l IH]; intros m n; cbn [fold_left filter]; [reflexivity|]. rewrite IH, accumulate_lookup. destruct (named_as n a); reflexivity.
  Qed.
  Lemma accumulates_nodup l m : NoDup (map fst m) -> NoDup (map fst (fold_left accumulate l m)).
  Proof. apply (fold_inv (fun m => NoDup (map fst m))). intros a b. apply accumulate_nodup. Qed.

  Definition ev_acc (m : list (string * iband)) (e : string) : list (string * iacc) := match slookup e m with Some b => ib_attributes b | None => [] end.
  Lemma add_event_acc n l m e k : slookup k (ev_acc (add_event to_f64 n l m) e) = fold_left step (filter (named_as k) (if String.eqb n e then l else [])) (slookup k (ev_acc m e)).
  Proof.
    unfold ev_acc, add_event, change. rewrite slookup_insert, String.eqb_sym. destruct (String.eqb_spec n e) as [->|N]; [|reflexivity].
    cbn [event_attrs ib_attributes]. rewrite accumulates_lookup. destruct (slookup e m); reflexivity.
  Qed.
  Lemma add_events_acc events : forall m e k, slookup k (ev_acc (fold_left (fun m e => add_event to_f64 (fst e) (snd e) m) events m) e) =
    fold_left step (filter (named_as k) (flat_map snd (filter (fun x => String.eqb (fst x) e) events))) (slookup k (ev_acc m e)).
  Proof.
    induction events as [|[n l] events IH]; intros m e k; cbn [fold_left filter fst snd]; [reflexivity|]. rewrite IH, add_event_acc.
    destruct (String.eqb n e); cbn [flat_map snd]; rewrite ?filter_app, ?fold_left_app; reflexivity.
  Qed.
  Definition acc (st : istate) (src : source) : list (string * iacc) :=
    match src with
    | FromResource => st_resources st
    | FromSpan n => match slookup n (st_spans st) with Some s => ip_attributes s | None => [] end
    | FromSpanEvent n e => match slookup n (st_spans st) with Some s => ev_acc (ip_events s) e | None => [] end
    | FromMetric n => match slookup n (st_metrics st) with Some m => im_attributes m | None => [] end
    | FromEvent n => ev_acc (st_events st) n
    end.
  Lemma points_lookup ps : forall m n, slookup n (fold_left (fun acc p => fold_left accumulate p acc) ps m) = fold_left step (filter (named_as n) (concat ps)) (slookup n m).
  Proof.
    induction ps as [|p ps IH]; intros m n; cbn [fold_left concat]; [reflexivity|]. rewrite IH, accumulates_lookup, filter_app, fold_left_app. reflexivity.
  Qed.
  Lemma add_acc st s src k : slookup k (acc (add_sample to_f64 st s) src) = fold_left step (filter (named_as k) (shown src s)) (slookup k (acc st src)).
  Proof.
    destruct s as [attrs|name kind attrs events|name [i|] unit points|name attrs|a|]; destruct src as [|n|n e|n|n]; cbn [acc shown add_sample st_resources st_spans st_metrics st_events]; try reflexivity.
    - apply accumulates_lookup.
    - unfold change. rewrite slookup_insert, String.eqb_sym. destruct (String.eqb_spec name n) as [->|N]; [|reflexivity]. cbn [span_attrs ip_attributes].
      rewrite accumulates_lookup. destruct (slookup n (st_spans st)); reflexivity.
    - unfold change. rewrite slookup_insert, String.eqb_sym. destruct (String.eqb_spec name n) as [->|N]; [|reflexivity]. cbn [span_attrs ip_events].
      rewrite add_events_acc. destruct (slookup n (st_spans st)); reflexivity.
    - unfold change. rewrite slookup_insert, String.eqb_sym. destruct (String.eqb_spec name n) as [->|N].
      + cbn [metric_attrs im_attributes]. destruct points as [ps|].
        * rewrite points_lookup. destruct (slookup n (st_metrics st)); reflexivity.
        * destruct (slookup n (st_metrics st)); reflexivity.
      + destruct points; reflexivity.
    - destruct (String.eqb name ""); reflexivity.
    - destruct (String.eqb name ""); reflexivity.
    - destruct (String.eqb name ""); reflexivity.
    - destruct (String.eqb name ""); reflexivity.
    - destruct (String.eqb_spec name "") as [->|N]; cbn [acc st_events negb].
      + rewrite andb_false_r. reflexivity.
      + rewrite andb_true_r, add_event_acc. reflexivity.
    - rewrite accumulate_lookup. cbn [filter fold_left]. destruct (named_as k a); reflexivity.
  Qed.
  Definition gather (l : list iattr) : option iacc := fold_left step l None.
  Lemma observe_acc samples src k : slookup k (acc (observe to_f64 samples) src) = gather (stream samples src k).
  Proof.
    unfold observe, gather, stream. assert (G : forall st, slookup k (acc (fold_left (add_sample to_f64) samples st) src) = fold_left step (filter (named_as k) (flat_map (shown src) samples)) (slookup k (acc st src))).
    { induction samples as [|s samples IH]; intros st; cbn [fold_left flat_map]; [reflexivity|]. rewrite IH, add_acc, filter_app, fold_left_app. reflexivity. }
    rewrite G. destruct src; reflexivity.
  Qed.
  Lemma gather_cons a r : gather (a :: r) = Some {| ic_id := ia_name a; ic_type := opt_get (ia_type a) PString; ic_examples := fold_left (add_example to_f64) (stream_values (a :: r)) None |}.
  Proof.
    unfold gather. cbn [fold_left]. unfold step at 2.
    assert (G : forall r c, fold_left step r (Some c) = Some {| ic_id := ic_id c; ic_type := ic_type c; ic_examples := fold_left (add_example to_f64) (stream_values r) (ic_examples c) |}).
    { clear. induction r as [|b r IH]; intros c; cbn [fold_left stream_values flat_map]; [destruct c; reflexivity|]. unfold step at 2. rewrite IH. unfold update_example. destruct (ia_value b) as [v|]; reflexivity. }
    rewrite G. cbn [stream_values flat_map]. unfold from_sample. destruct (ia_value a) as [v|]; reflexivity.
  Qed.
  Lemma gather_none l : gather l = None <-> l = [].
  Proof. destruct l as [|a l]; [split; reflexivity|]. rewrite gather_cons. split; discriminate. Qed.

  (* ---------- the shape of the state ---------- *)
  Definition band_ok (m : list (string * iband)) : Prop := NoDup (map fst m) /\ forall e b, slookup e m = Some b -> ib_name b = e /\ NoDup (map fst (ib_attributes b)).
  Definition span_ok (n : string) (s : ispan) : Prop := ip_name s = n /\ NoDup (map fst (ip_attributes s)) /\ band_ok (ip_events s).
  Definition metric_ok (n : string) (m : imetric) : Prop := im_name m = n /\ NoDup (map fst (im_attributes m)).
  Definition state_ok (st : istate) : Prop :=
    NoDup (map fst (st_resources st)) /\ NoDup (map fst (st_spans st)) /\ (forall n s, slookup n (st_spans st) = Some s -> span_ok n s) /\
    NoDup (map fst (st_metrics st)) /\ (forall n m, slookup n (st_metrics st) = Some m -> metric_ok n m) /\ band_ok (st_events st).
  Lemma band_add n l m : band_ok m -> band_ok (add_event to_f64 n l m).
  Proof.
    intros (N & H). split; [apply sinsert_nodup, N|]. intros e b. unfold add_event, change. rewrite slookup_insert. destruct (String.eqb_spec e n) as [->|Ne]; [|apply H].
    intros X. injection X as <-. cbn. destruct (slookup n m) as [b|] eqn:E; cbn [opt_get].
    - destruct (H n b E) as (A & B). split; [exact A|apply accumulates_nodup, B].
    - split; [reflexivity|]. apply accumulates_nodup. constructor.
  Qed.
  Lemma band_nil : band_ok [].
  Proof. split; [constructor|]. intros e b X. discriminate. Qed.
  Lemma state_add st s : state_ok st -> state_ok (add_sample to_f64 st s).
  Proof.
    intros Ok. pose proof Ok as (R & Sn & Sp & Mn & Mp & Ev). destruct s as [attrs|name kind attrs events|name [i|] unit points|name attrs|a|]; cbn [add_sample]; try exact Ok.
    - unfold state_ok. cbn. split; [apply accumulates_nodup, R|]. auto.
    - unfold state_ok. cbn. split; [exact R|]. split; [apply sinsert_nodup, Sn|]. split; [|auto]. intros n s. unfold change. rewrite slookup_insert.
      destruct (String.eqb_spec n name) as [->|Nn]; [|apply Sp]. intros X. injection X as <-. unfold span_ok. cbn.
      assert (O : span_ok name (opt_get (slookup name (st_spans st)) {| ip_name := name; ip_kind := kind; ip_attributes := []; ip_events := [] |})).
      { destruct (slookup name (st_spans st)) as [s|] eqn:E; cbn [opt_get]; [apply Sp, E|]. split; [reflexivity|]. split; [constructor|apply band_nil]. }
      destruct O as (A & B & C). split; [exact A|]. split; [apply accumulates_nodup, B|]. apply (fold_inv band_ok); [|exact C]. intros m e Hm. apply band_add, Hm.
    - unfold state_ok. cbn. split; [exact R|]. split; [exact Sn|]. split; [exact Sp|]. split; [apply sinsert_nodup, Mn|]. split; [|exact Ev]. intros n m. unfold change. rewrite slookup_insert.
      destruct (String.eqb_spec n name) as [->|Nn]; [|apply Mp]. intros X. injection X as <-. unfold metric_ok. cbn.
      assert (O : metric_ok name (opt_get (slookup name (st_metrics st)) {| im_name := name; im_instrument := i; im_unit := unit; im_attributes := [] |})).
      { destruct (slookup name (st_metrics st)) as [m|] eqn:E; cbn [opt_get]; [apply Mp, E|]. split; [reflexivity|constructor]. }
      destruct O as (A & B). split; [exact A|]. destruct points as [ps|]; [|exact B]. apply (fold_inv (fun m => NoDup (map fst m))); [|exact B]. intros x y Hx. apply accumulates_nodup, Hx.
    - destruct (String.eqb name ""); [exact Ok|]. unfold state_ok. cbn. repeat (split; [assumption|]). apply band_add, Ev.
    - unfold state_ok. cbn. split; [apply accumulate_nodup, R|]. auto.
  Qed.
  Lemma observe_ok samples : state_ok (observe to_f64 samples).
  Proof.
    apply (fold_inv state_ok); [intros st s; apply state_add|]. unfold state_ok. cbn. split; [constructor|]. split; [constructor|]. split; [intros n s H; discriminate|]. split; [constructor|]. split; [intros n s H; discriminate|]. apply band_nil.
  Qed.
  Lemma acc_nodup st src : state_ok st -> NoDup (map fst (acc st src)).
  Proof.
    intros (R & Sn & Sp & Mn & Mp & Ev). assert (Bn : forall m e, band_ok m -> NoDup (map fst (ev_acc m e))).
    { intros m e (_ & B). unfold ev_acc. destruct (slookup e m) as [b|] eqn:E; [apply (B e b E)|constructor]. }
    destruct src as [|n|n e|n|n]; cbn [acc].
    - exact R.
    - destruct (slookup n (st_spans st)) as [s|] eqn:E; [apply (Sp n s E)|constructor].
    - destruct (slookup n (st_spans st)) as [s|] eqn:E; [apply Bn, (Sp n s E)|constructor].
    - destruct (slookup n (st_metrics st)) as [m|] eqn:E; [apply (Mp n m E)|constructor].
    - apply Bn, Ev.
  Qed.
  (* presence of signals *)
  Lemma observe_snoc samples s : observe to_f64 (app samples [s]) = add_sample to_f64 (observe to_f64 samples) s.
  Proof. unfold observe. rewrite fold_left_app. reflexivity. Qed.
  Lemma spans_present samples n :
    match slookup n (st_spans (observe to_f64 samples)) with
    | Some s => first_span samples n (ip_kind s)
    | None => forall k l e, ~ In (ISpan n k l e) samples
    end.
  Proof.
    induction samples as [|s samples IH] using rev_ind; [intros k l e []|]. rewrite observe_snoc.
    assert (Keep : slookup n (st_spans (add_sample to_f64 (observe to_f64 samples) s)) = slookup n (st_spans (observe to_f64 samples)) -> (forall k l e, s <> ISpan n k l e) ->
      match slookup n (st_spans (add_sample to_f64 (observe to_f64 samples) s)) with Some s0 => first_span (samples ++ [s]) n (ip_kind s0) | None => forall k l e, ~ In (ISpan n k l e) (samples ++ [s]) end).
    { intros -> Ns. destruct (slookup n (st_spans (observe to_f64 samples))) as [p|].
      - destruct IH as (a & l & e & b & -> & Na). exists a, l, e, (app b [s]). rewrite <- app_assoc. split; [reflexivity|exact Na].
      - intros k l e I. apply in_app_iff in I as [I|[I|[]]]; [apply (IH _ _ _ I)|apply (Ns _ _ _ I)]. }
    destruct s as [attrs|name kind attrs events|name [i|] unit points|name attrs|a|]; try (apply Keep; [reflexivity|discriminate]).
    - cbn [add_sample st_spans] in *. unfold change in *. rewrite slookup_insert in *. destruct (String.eqb_spec n name) as [->|N].
      + cbn [span_attrs ip_kind]. destruct (slookup name (st_spans (observe to_f64 samples))) as [p|]; cbn [opt_get ip_kind].
        * destruct IH as (a & l & e & b & -> & Na). exists a, l, e, (app b [ISpan name kind attrs events]). rewrite <- app_assoc. split; [reflexivity|exact Na].
        * exists samples, attrs, events, []. split; [reflexivity|exact IH].
      + apply Keep; [reflexivity|]. intros k l e X. injection X as -> _ _ _. congruence.
    - cbn [add_sample] in *. destruct (String.eqb name ""); apply Keep; try reflexivity; discriminate.
  Qed.
  Lemma metrics_present samples n :
    match slookup n (st_metrics (observe to_f64 samples)) with
    | Some m => first_metric samples n (im_instrument m) (im_unit m)
    | None => forall i u p, ~ In (IMetric n (Some i) u p) samples
    end.
  Proof.
    induction samples as [|s samples IH] using rev_ind; [intros k l e []|]. rewrite observe_snoc.
    assert (Keep : slookup n (st_metrics (add_sample to_f64 (observe to_f64 samples) s)) = slookup n (st_metrics (observe to_f64 samples)) -> (forall i u p, s <> IMetric n (Some i) u p) ->
      match slookup n (st_metrics (add_sample to_f64 (observe to_f64 samples) s)) with Some s0 => first_metric (samples ++ [s]) n (im_instrument s0) (im_unit s0) | None => forall i u p, ~ In (IMetric n (Some i) u p) (samples ++ [s]) end).
    { intros -> Ns. destruct (slookup n (st_metrics (observe to_f64 samples))) as [p|].
      - destruct IH as (a & l & b & -> & Na). exists a, l, (app b [s]). rewrite <- app_assoc. split; [reflexivity|exact Na].
      - intros k l e I. apply in_app_iff in I as [I|[I|[]]]; [apply (IH _ _ _ I)|apply (Ns _ _ _ I)]. }
    destruct s as [attrs|name kind attrs events|name [i|] unit points|name attrs|a|]; try (apply Keep; [reflexivity|discriminate]).
    - cbn [add_sample st_metrics] in *. unfold change in *. rewrite slookup_insert in *. destruct (String.eqb_spec n name) as [->|N].
      + cbn [metric_attrs im_instrument im_unit]. destruct (slookup name (st_metrics (observe to_f64 samples))) as [p|]; cbn [opt_get im_instrument im_unit].
        * destruct IH as (a & l & b & -> & Na). exists a, l, (app b [IMetric name (Some i) unit points]). rewrite <- app_assoc. split; [reflexivity|exact Na].
        * exists samples, points, []. split; [reflexivity|exact IH].
      + apply Keep; [reflexivity|]. intros i' u' p' X. injection X as -> _ _ _. congruence.
    - cbn [add_sample] in *. destruct (String.eqb name ""); apply Keep; try reflexivity; discriminate.
  Qed.
  Lemma add_event_present n l m e : slookup e (add_event to_f64 n l m) <> None <-> e = n \/ slookup e m <> None.
  Proof.
    unfold add_event, change. rewrite slookup_insert. destruct (String.eqb_spec e n) as [->|N]; [split; [auto|discriminate]|]. split; [auto|]. intros [X|X]; [congruence|exact X].
  Qed.
  Lemma add_events_present events : forall m e, slookup e (fold_left (fun m e => add_event to_f64 (fst e) (snd e) m) events m) <> None <-> (exists l, In (e, l) events) \/ slookup e m <> None.
  Proof.
    induction events as [|[n l] events IH]; intros m e; cbn [fold_left fst snd]; [split; [auto|intros [(l & [])|H]; exact H]|]. rewrite IH, add_event_present. split.
    - intros [(l' & I)|[->|H]]; [left; exists l'; right; exact I|left; exists l; left; reflexivity|right; exact H].
    - intros [(l' & [E|I])|H]; [injection E as -> ->; right; left; reflexivity|left; exists l'; exact I|right; right; exact H].
  Qed.
  Lemma events_present samples n : slookup n (st_events (observe to_f64 samples)) <> None <-> n <> "" /\ exists l, In (ILog n l) samples.
  Proof.
    induction samples as [|s samples IH] using rev_ind; [split; [intros H; destruct (H eq_refl)|intros (_ & l & [])]|]. rewrite observe_snoc.
    assert (Keep : slookup n (st_events (add_sample to_f64 (observe to_f64 samples) s)) = slookup n (st_events (observe to_f64 samples)) -> (n <> "" -> forall l, s <> ILog n l) ->
      (slookup n (st_events (add_sample to_f64 (observe to_f64 samples) s)) <> None <-> n <> "" /\ exists l, In (ILog n l) (samples ++ [s]))).
    { intros -> Ns. rewrite IH. split; intros (Nn & l & I); (split; [exact Nn|]); exists l; [apply in_app_iff; left; exact I|]. apply in_app_iff in I as [I|[I|[]]]; [exact I|destruct (Ns Nn l I)]. }
    destruct s as [attrs|name kind attrs events|name [i|] unit points|name attrs|a|]; try (apply Keep; [reflexivity|discriminate]).
    cbn [add_sample] in *. destruct (String.eqb_spec name "") as [->|Nn].
    - apply Keep; [reflexivity|]. intros X l E. injection E as E _. congruence.
    - cbn [st_events] in *. destruct (string_dec n name) as [->|N].
      + rewrite add_event_present. split; [intros _; split; [exact Nn|]; exists attrs; apply in_app_iff; right; left; reflexivity|]. left. reflexivity.
      + apply Keep; [|intros _ l E; injection E as E _; congruence]. unfold add_event, change. rewrite slookup_insert. destruct (String.eqb_spec n name); [congruence|reflexivity].
  Qed.
  Lemma span_events_present samples n e : (exists s, slookup n (st_spans (observe to_f64 samples)) = Some s /\ slookup e (ip_events s) <> None) <->
    exists k l events l', In (ISpan n k l events) samples /\ In (e, l') events.
  Proof.
    induction samples as [|s samples IH] using rev_ind; [split; [intros (s & X & _); discriminate|intros (k & l & ev & l' & [] & _)]|]. rewrite observe_snoc.
    assert (Keep : slookup n (st_spans (add_sample to_f64 (observe to_f64 samples) s)) = slookup n (st_spans (observe to_f64 samples)) -> (forall k l ev, s <> ISpan n k l ev) ->
      ((exists s0, slookup n (st_spans (add_sample to_f64 (observe to_f64 samples) s)) = Some s0 /\ slookup e (ip_events s0) <> None) <-> exists k l events l', In (ISpan n k l events) (samples ++ [s]) /\ In (e, l') events)).
    { intros -> Ns. rewrite IH. split; intros (k & l & ev & l' & I & I'); exists k, l, ev, l'; (split; [|exact I']); [apply in_app_iff; left; exact I|]. apply in_app_iff in I as [I|[I|[]]]; [exact I|destruct (Ns _ _ _ I)]. }
    destruct s as [attrs|name kind attrs events|name [i|] unit points|name attrs|a|]; try (apply Keep; [reflexivity|discriminate]).
    - cbn [add_sample st_spans] in *. unfold change in *. rewrite slookup_insert in *. destruct (String.eqb_spec n name) as [->|N]; [|apply Keep; [reflexivity|]; intros k l ev X; injection X as -> _ _ _; congruence].
      split.
      + intros (s & E & P). injection E as <-. cbn [span_attrs ip_events] in P. apply add_events_present in P as [(l' & I)|P].
        * exists kind, attrs, events, l'. split; [apply in_app_iff; right; left; reflexivity|exact I].
        * destruct (slookup name (st_spans (observe to_f64 samples))) as [p|] eqn:Ep; cbn [opt_get ip_events] in P; [|destruct (P eq_refl)].
          destruct (proj1 IH) as (k & l & ev & l' & I & I'); [exists p; auto|]. exists k, l, ev, l'. split; [apply in_app_iff; left; exact I|exact I'].
      + intros (k & l & ev & l' & I & I'). eexists. split; [reflexivity|]. cbn [span_attrs ip_events]. apply add_events_present. apply in_app_iff in I as [I|[I|[]]].
        * right. destruct (proj2 IH) as (p & Ep & P); [exists k, l, ev, l'; auto|]. rewrite Ep. exact P.
        * injection I as -> -> ->. left. exists l'. exact I'.
    - cbn [add_sample] in *. destruct (String.eqb name ""); apply Keep; try reflexivity; discriminate.
  Qed.
End Acc.

(* ---------- sorting ---------- *)
Lemma strict_sort {A} (key : A -> string) l : NoDup (map key l) -> StronglySorted str_lt (map key (stable_sort (fun a b => str_leb (key a) (key b)) l)).
Proof.
  intros N. set (leb := fun a b => str_leb (key a) (key b)).
  assert (Ss : StronglySorted (le leb) (stable_sort leb l)).
  { apply stable_sort_sorted; unfold leb; [intros a b; apply str_leb_total|intros a b c; apply str_leb_trans]. }
  assert (Nd : NoDup (map key (stable_sort leb l))).
  { eapply Permutation_NoDup; [|exact N]. apply Permutation_map, stable_sort_perm. }
  revert Nd. induction Ss as [|x r Hr IH Hx]; cbn [map]; intros Nd; [constructor|]. inversion_clear Nd as [|? ? Nx Nr]. constructor; [apply IH, Nr|].
  rewrite Forall_forall in *. intros k I. apply in_map_iff in I as (y & <- & Iy). specialize (Hx y Iy). unfold le, leb, str_leb in Hx. unfold str_lt.
  destruct (str_cmp (key x) (key y)) eqn:E; [|reflexivity|discriminate]. apply str_cmp_eq in E. destruct Nx. rewrite E. apply in_map, Iy.
Qed.
Lemma sort_names_in l x : In x (sort_names l) <-> In x l.
Proof. unfold sort_names. split; apply Permutation_in; [apply Permutation_sym|]; apply stable_sort_perm. Qed.
Lemma strict_names l : NoDup l -> StronglySorted str_lt (sort_names l).
Proof.
  intros N. unfold sort_names. pose proof (strict_sort (fun x : string => x) l) as H. rewrite map_id in H. specialize (H N). rewrite map_id in H. exact H.
Qed.
Lemma dedup_in l x : In x (dedup l) <-> In x l.
Proof.
  induction l as [|y [|z r] IH]; [reflexivity|reflexivity|]. change (dedup (y :: z :: r)) with (if String.eqb y z then dedup (z :: r) else y :: dedup (z :: r)).
  destruct (String.eqb_spec y z) as [->|N].
  - rewrite IH. cbn. tauto.
  - cbn [In] in *. rewrite IH. tauto.
Qed.
Lemma dedup_sorted l : StronglySorted (le str_leb) l -> StronglySorted str_lt (dedup l).
Proof.
  induction l as [|y [|z r] IH]; intros H; [constructor|constructor; [constructor|constructor]|].
  change (dedup (y :: z :: r)) with (if String.eqb y z then dedup (z :: r) else y :: dedup (z :: r)).
  inversion_clear H as [|? ? Hr Hy]. specialize (IH Hr). destruct (String.eqb_spec y z) as [->|N]; [exact IH|]. constructor; [exact IH|].
  assert (Lz : str_lt y z). { inversion_clear Hy as [|? ? Hz _]. unfold le, str_leb in Hz. unfold str_lt. destruct (str_cmp y z) eqn:E; [|reflexivity|discriminate]. apply str_cmp_eq in E. congruence. }
  rewrite Forall_forall. intros w I. destruct (proj1 (dedup_in _ _) I) as [<-|I0]; [exact Lz|]; clear I; rename I0 into I.
  inversion_clear Hr as [|? ? _ Hz]. rewrite Forall_forall in Hz. specialize (Hz w I). unfold le, str_leb in Hz. destruct (str_cmp z w) eqn:E; [|eapply str_lt_trans; [exact Lz|exact E]|discriminate].
  apply str_cmp_eq in E. subst w. exact Lz.
Qed.
Lemma dedup_names l : StronglySorted str_lt (dedup (sort_names l)).
Proof. apply dedup_sorted, stable_sort_sorted; [apply str_leb_total|apply str_leb_trans]. Qed.

(* ---------- definitions ---------- *)
Definition def_of (c : iacc) : attr_def2 := {| ad_key := ic_id c; ad_type := TPrim (ic_type c); ad_examples := ic_examples c; ad_common := inferred_common |}.
Lemma collect_app l1 l2 d : collect_defs d (app l1 l2) = collect_defs (collect_defs d l1) l2.
Proof. unfold collect_defs. apply fold_left_app. Qed.
Lemma collect_lookup l : forall d k, slookup k (collect_defs d l) = match slookup k d with Some x => Some x | None => option_map def_of (find (fun c => String.eqb (ic_id c) k) l) end.
Proof.
  induction l as [|c l IH]; intros d k; [cbn; destruct (slookup k d); reflexivity|]. change (collect_defs d (c :: l)) with (collect_defs (collect_defs d [c]) l). rewrite IH. clear IH. cbn [find].
  unfold collect_defs. cbn [fold_left]. destruct (slookup (ic_id c) d) as [x|] eqn:E.
  - destruct (slookup k d) as [y|] eqn:Ey; [reflexivity|]. destruct (String.eqb_spec (ic_id c) k) as [<-|N]; [congruence|reflexivity].
  - rewrite slookup_insert, String.eqb_sym. destruct (String.eqb_spec (ic_id c) k) as [<-|N]; [rewrite E; reflexivity|reflexivity].
Qed.
Lemma collect_nodup l d : NoDup (map fst d) -> NoDup (map fst (collect_defs d l)).
Proof. unfold collect_defs. apply (fold_inv (fun d => NoDup (map fst d))). intros a b H. destruct (slookup (ic_id b) a); [exact H|apply sinsert_nodup, H]. Qed.
Lemma fold_collect {A} (g : A -> list iacc) l : forall d, fold_left (fun d x => collect_defs d (g x)) l d = collect_defs d (flat_map g l).
Proof. induction l as [|x l IH]; intros d; cbn [fold_left flat_map]; [reflexivity|]. rewrite IH, collect_app. reflexivity. Qed.
Lemma fold_left_ext {A B} (f g : A -> B -> A) l : (forall a b, f a b = g a b) -> forall a, fold_left f l a = fold_left g l a.
Proof. intros H. induction l as [|x l IH]; intros a; cbn; [reflexivity|]. rewrite H. apply IH. Qed.
Lemma find_app {A} (p : A -> bool) l1 l2 : find p (app l1 l2) = match find p l1 with Some x => Some x | None => find p l2 end.
Proof. induction l1 as [|x l1 IH]; cbn; [reflexivity|]. destruct (p x); [reflexivity|exact IH]. Qed.

(* ---------- merging ---------- *)
Definition add_pair (m : list (string * list string)) (p : string * list string) : list (string * list string) := change (fst p) [] (fun l => app l (snd p)) m.
Lemma merge_facts ps : forall m, NoDup (map fst m) ->
  let r := fold_left add_pair ps m in
  NoDup (map fst r) /\ forall n,
  (slookup n r <> None <-> slookup n m <> None \/ exists l, In (n, l) ps) /\
  (forall l x, slookup n r = Some l -> (In x l <-> (exists l0, slookup n m = Some l0 /\ In x l0) \/ exists l0, In (n, l0) ps /\ In x l0)).
Proof.
  induction ps as [|[k v] ps IH]; intros m N; cbn [fold_left].
  - split; [exact N|]. intros n. split; [split; [auto|intros [H|(l & [])]; exact H]|]. intros l x E. split.
    + intros I. left. exists l. auto.
    + intros [(l0 & E0 & I)|(l0 & [] & _)]. rewrite E in E0. injection E0 as <-. exact I.
  - assert (N' : NoDup (map fst (add_pair m (k, v)))) by (apply sinsert_nodup, N). destruct (IH (add_pair m (k, v)) N') as (A & B). split; [exact A|]. intros n. destruct (B n) as (C & D). clear A B.
    assert (E : slookup n (add_pair m (k, v)) = if String.eqb n k then Some (app (opt_get (slookup k m) []) v) else slookup n m) by (unfold add_pair, change; apply slookup_insert).
    rewrite E in C, D. split.
    + rewrite C. clear. destruct (String.eqb_spec n k) as [->|Ne].
      * split; [intros _; right; exists v; left; reflexivity|]. intros _. left. discriminate.
      * split; [intros [H|(l & I)]; [left; exact H|right; exists l; right; exact I]|]. intros [H|(l & [X|I])]; [left; exact H|injection X as -> _; congruence|right; exists l; exact I].
    + intros l x El. rewrite (D l x El). clear. destruct (String.eqb_spec n k) as [->|Ne].
      * split.
        -- intros [(l0 & X & I)|(l0 & I & I')].
           ++ injection X as <-. apply in_app_iff in I as [I|I]; [|right; exists v; split; [left; reflexivity|exact I]]. destruct (slookup k m) as [l1|]; cbn in I; [left; exists l1; auto|destruct I].
           ++ right. exists l0. split; [right; exact I|exact I'].
        -- intros [(l0 & X & I)|(l0 & [X|I] & I')].
           ++ left. eexists. split; [reflexivity|]. rewrite X. apply in_app_iff. left. exact I.
           ++ injection X as <-. left. eexists. split; [reflexivity|]. apply in_app_iff. right. exact I'.
           ++ right. exists l0. auto.
      * split.
        -- intros [H|(l0 & I & I')]; [left; exact H|right; exists l0; split; [right; exact I|exact I']].
        -- intros [H|(l0 & [X|I] & I')]; [left; exact H|injection X as -> _; congruence|right; exists l0; auto].
Qed.
Lemma merge_fresh ps : forall m, NoDup (map fst ps) -> (forall p, In p ps -> slookup (fst p) m = None) ->
  fold_left (fun m p => sinsert (fst p) (snd p) m) ps m = fold_left add_pair ps m.
Proof.
  induction ps as [|[k v] ps IH]; intros m N H; cbn [fold_left fst snd]; [reflexivity|]. inversion_clear N as [|? ? Nk Np].
  assert (E : add_pair m (k, v) = sinsert k v m). { unfold add_pair, change. cbn [fst snd]. pose proof (H (k, v) (or_introl eq_refl)) as X. cbn [fst] in X. rewrite X. reflexivity. }
  rewrite E. apply IH; [exact Np|]. intros [k' v'] I. cbn [fst]. rewrite slookup_insert. destruct (String.eqb_spec k' k) as [->|Ne].
  - destruct Nk. apply (in_map fst) in I. exact I.
  - apply (H (k', v')). right. exact I.
Qed.
Lemma fold_map {A B C} (f : C -> B -> C) (g : A -> B) l : forall c, fold_left (fun c x => f c (g x)) l c = fold_left f (map g l) c.
Proof. induction l as [|x l IH]; intros c; cbn; [reflexivity|apply IH]. Qed.
Lemma fold_flat {A B C} (f : C -> B -> C) (g : A -> list B) l : forall c, fold_left (fun c x => fold_left f (g x) c) l c = fold_left f (flat_map g l) c.
Proof. induction l as [|x l IH]; intros c; cbn [fold_left flat_map]; [reflexivity|]. rewrite fold_left_app. apply IH. Qed.

(* ---------- the file ---------- *)
Section File.
  Variable to_f64 : Z -> N.
  Variable order : list string -> forall A, list (string * A) -> list (string * A).
  Hypothesis Hord : forall tag A l, Permutation l (order tag A l).
  Variable samples : list isample.
  Notation st := (observe to_f64 samples).
  Notation vals := (values order).
  Lemma ok : state_ok st.
  Proof. apply observe_ok. Qed.
  Lemma values_in {A} tag (m : list (string * A)) c : In c (vals tag m) <-> exists k, In (k, c) m.
  Proof.
    unfold values. rewrite in_map_iff. split.
    - intros ([k c'] & <- & I). exists k. eapply Permutation_in; [apply Permutation_sym, Hord|exact I].
    - intros (k & I). exists (k, c). split; [reflexivity|]. eapply Permutation_in; [apply Hord|exact I].
  Qed.
  Lemma keys_in {A} tag (m : list (string * A)) k : In k (keys order tag m) <-> slookup k m <> None.
  Proof.
    unfold keys. rewrite slookup_none. assert (P : Permutation (map fst m) (map fst (order tag A m))) by (apply Permutation_map, Hord). split.
    - intros I N. apply N. eapply Permutation_in; [apply Permutation_sym, P|exact I].
    - intros N. destruct (in_dec string_dec k (map fst m)) as [I|I]; [|destruct (N I)]. eapply Permutation_in; [exact P|exact I].
  Qed.
  Lemma keys_nodup {A} tag (m : list (string * A)) : NoDup (map fst m) -> NoDup (keys order tag m).
  Proof. apply Permutation_NoDup, Permutation_map, Hord. Qed.
  Lemma values_named {A} (name : A -> string) tag m x : NoDup (map fst m) -> (forall k x, slookup k m = Some x -> name x = k) -> (In x (vals tag m) <-> slookup (name x) m = Some x).
  Proof.
    intros N H. rewrite values_in. split.
    - intros (k & I). apply slookup_in in I; [|exact N]. rewrite (H _ _ I). exact I.
    - intros E. exists (name x). apply slookup_in; assumption.
  Qed.
  Lemma values_distinct {A} (name : A -> string) tag m : NoDup (map fst m) -> (forall k x, slookup k m = Some x -> name x = k) -> NoDup (map name (vals tag m)).
  Proof.
    intros N H. unfold values. rewrite map_map. rewrite (map_ext_in _ fst); [eapply Permutation_NoDup; [apply Permutation_map, Hord|exact N]|].
    intros [k x] I. cbn. apply H. apply slookup_in; [exact N|]. eapply Permutation_in; [apply Permutation_sym, Hord|exact I].
  Qed.
  Lemma stream_named src k a r : stream samples src k = a :: r -> ia_name a = k.
  Proof.
    intros E. assert (I : In a (stream samples src k)) by (rewrite E; left; reflexivity). unfold stream in I. apply filter_In in I as (_ & I). apply String.eqb_eq, I.
  Qed.
  Lemma acc_stream src k c : slookup k (acc st src) = Some c -> exists a r, stream samples src k = a :: r /\
    c = {| ic_id := k; ic_type := opt_get (ia_type a) PString; ic_examples := fold_left (add_example to_f64) (stream_values (a :: r)) None |}.
  Proof.
    rewrite observe_acc. destruct (stream samples src k) as [|a r] eqn:E; [discriminate|]. rewrite gather_cons. intros H. injection H as <-. exists a, r. split; [reflexivity|].
    rewrite (stream_named _ _ _ _ E). reflexivity.
  Qed.
  Lemma acc_none src k : slookup k (acc st src) = None <-> stream samples src k = [].
  Proof. rewrite observe_acc. apply gather_none. Qed.
  Lemma stream_empty src k : stream samples src k = [] <-> forall a, ia_name a = k -> ~ observed samples src a.
  Proof.
    unfold stream, observed. split.
    - intros E a Hn (s & I & Ia). assert (X : In a (filter (fun a => String.eqb (ia_name a) k) (flat_map (shown src) samples))).
      { apply filter_In. split; [apply in_flat_map; exists s; auto|apply String.eqb_eq, Hn]. }
      rewrite E in X. exact X.
    - intros H. destruct (filter _ _) as [|a r] eqn:E; [reflexivity|]. assert (X : In a (filter (fun a => String.eqb (ia_name a) k) (flat_map (shown src) samples))) by (rewrite E; left; reflexivity).
      apply filter_In in X as (X & En). apply in_flat_map in X as (s & I & Ia). apply String.eqb_eq in En. destruct (H a En). exists s. auto.
  Qed.
  Lemma acc_some src k : slookup k (acc st src) <> None <-> exists a, ia_name a = k /\ observed samples src a.
  Proof.
    rewrite acc_none. split.
    - intros N. destruct (stream samples src k) as [|a r] eqn:E; [destruct (N eq_refl)|]. exists a. split; [apply (stream_named _ _ _ _ E)|].
      assert (I : In a (stream samples src k)) by (rewrite E; left; reflexivity). unfold stream in I. apply filter_In in I as (I & _). apply in_flat_map in I as (s & I & Ia). exists s. auto.
    - intros (a & Hn & O) E. rewrite stream_empty in E. apply (E a Hn O).
  Qed.
  Lemma in_spans s : In s (vals ["spans"] (st_spans st)) <-> slookup (ip_name s) (st_spans st) = Some s.
  Proof. destruct ok as (_ & N & H & _). apply values_named; [exact N|]. intros k x E. apply (H k x E). Qed.
  Lemma in_metrics m : In m (vals ["metrics"] (st_metrics st)) <-> slookup (im_name m) (st_metrics st) = Some m.
  Proof. destruct ok as (_ & _ & _ & N & H & _). apply values_named; [exact N|]. intros k x E. apply (H k x E). Qed.
  Lemma in_events e : In e (vals ["events"] (st_events st)) <-> slookup (ib_name e) (st_events st) = Some e.
  Proof. destruct ok as (_ & _ & _ & _ & _ & N & H). apply values_named; [exact N|]. intros k x E. apply (H k x E). Qed.
  Lemma in_span_events s e tag : slookup (ip_name s) (st_spans st) = Some s -> (In e (vals tag (ip_events s)) <-> slookup (ib_name e) (ip_events s) = Some e).
  Proof. intros Es. destruct ok as (_ & _ & H & _). destruct (H _ _ Es) as (_ & _ & N & Hb). apply values_named; [exact N|]. intros k x E. apply (Hb k x E). Qed.
  Lemma in_acc src tag c : In c (vals tag (acc st src)) <-> exists k, slookup k (acc st src) = Some c.
  Proof.
    rewrite values_in. pose proof (acc_nodup _ src ok) as N. split; intros (k & I); exists k; [apply slookup_in; [exact N|exact I]|apply slookup_in in I; [exact I|exact N]].
  Qed.
  Lemma acc_span s : slookup (ip_name s) (st_spans st) = Some s -> ip_attributes s = acc st (FromSpan (ip_name s)).
  Proof. intros E. cbn. rewrite E. reflexivity. Qed.
  Lemma acc_span_event s e : slookup (ip_name s) (st_spans st) = Some s -> slookup (ib_name e) (ip_events s) = Some e -> ib_attributes e = acc st (FromSpanEvent (ip_name s) (ib_name e)).
  Proof. intros E E'. cbn. rewrite E. unfold ev_acc. rewrite E'. reflexivity. Qed.
  Lemma acc_metric m : slookup (im_name m) (st_metrics st) = Some m -> im_attributes m = acc st (FromMetric (im_name m)).
  Proof. intros E. cbn. rewrite E. reflexivity. Qed.
  Lemma acc_event e : slookup (ib_name e) (st_events st) = Some e -> ib_attributes e = acc st (FromEvent (ib_name e)).
  Proof. intros E. cbn. unfold ev_acc. rewrite E. reflexivity. Qed.

  (* the definitions *)
  Definition spans := vals ["spans"] (st_spans st).
  Definition metrics := vals ["metrics"] (st_metrics st).
  Definition events := vals ["events"] (st_events st).
  Definition events_of s := vals ["span events"; ip_name s] (ip_events s).
  Definition event_tag s e := ["span event"; ip_name s; ib_name e].
  Definition of_span_events s := flat_map (fun e => vals (event_tag s e) (ib_attributes e)) (events_of s).
  Definition part0 := vals ["resources"] (st_resources st).
  Definition part1 := flat_map (fun s => app (vals ["span"; ip_name s] (ip_attributes s)) (of_span_events s)) spans.
  Definition part2 := flat_map (fun m => vals ["metric"; im_name m] (im_attributes m)) metrics.
  Definition part3 := flat_map (fun e => vals ["event"; ib_name e] (ib_attributes e)) events.
  Definition part4 := flat_map of_span_events spans.
  Definition parts := app part0 (app part1 (app part2 (app part3 part4))).
  Definition final_defs := collect_defs [] parts.
  Lemma defs_eq : s2d_attributes (to_spec order st) = stable_sort (fun a b => str_leb (ad_key a) (ad_key b)) (vals ["defs"] final_defs).
  Proof.
    unfold to_spec. cbn [s2d_attributes]. f_equal. f_equal. unfold final_defs, parts. rewrite !collect_app. unfold part0, part1, part2, part3, part4, of_span_events, event_tag, events_of, spans, metrics, events.
    rewrite <- !fold_collect.
    rewrite (fold_left_ext (fun d s => fold_left (fun d e => collect_defs d (vals ["span event"; ip_name s; ib_name e] (ib_attributes e))) (vals ["span events"; ip_name s] (ip_events s)) (collect_defs d (vals ["span"; ip_name s] (ip_attributes s))))
      (fun d s => collect_defs d (app (vals ["span"; ip_name s] (ip_attributes s)) (flat_map (fun e => vals ["span event"; ip_name s; ib_name e] (ib_attributes e)) (vals ["span events"; ip_name s] (ip_events s)))))).
    2:{ intros d s. rewrite collect_app, fold_collect. reflexivity. }
    rewrite (fold_left_ext (fun d s => fold_left (fun d e => collect_defs d (vals ["span event"; ip_name s; ib_name e] (ib_attributes e))) (vals ["span events"; ip_name s] (ip_events s)) d)
      (fun d s => collect_defs d (flat_map (fun e => vals ["span event"; ip_name s; ib_name e] (ib_attributes e)) (vals ["span events"; ip_name s] (ip_events s))))).
    2:{ intros d s. rewrite fold_collect. reflexivity. }
    reflexivity.
  Qed.
  Lemma in_part0 c : In c part0 <-> exists k, slookup k (acc st FromResource) = Some c.
  Proof. apply (in_acc FromResource). Qed.
  Lemma in_of_span_events s c : slookup (ip_name s) (st_spans st) = Some s -> (In c (of_span_events s) <-> exists e k, slookup k (acc st (FromSpanEvent (ip_name s) e)) = Some c).
  Proof.
    intros Es. unfold of_span_events, events_of. rewrite in_flat_map. split.
    - intros (e & Ie & Ic). apply (in_span_events s e _ Es) in Ie. rewrite (acc_span_event s e Es Ie) in Ic. apply in_acc in Ic as (k & Ic). exists (ib_name e), k. exact Ic.
    - intros (e & k & Ic). assert (Ee : exists b, slookup e (ip_events s) = Some b). { cbn [acc] in Ic. rewrite Es in Ic. unfold ev_acc in Ic. destruct (slookup e (ip_events s)) as [b|]; [eauto|discriminate]. }
      destruct Ee as (b & Eb). assert (Nb : ib_name b = e). { destruct ok as (_ & _ & H & _). destruct (H _ _ Es) as (_ & _ & _ & Hb). apply (Hb e b Eb). }
      subst e. exists b. split; [apply (in_span_events s b _ Es), Eb|]. rewrite (acc_span_event s b Es Eb). apply in_acc. exists k. exact Ic.
  Qed.
  Lemma span_found n s : slookup n (st_spans st) = Some s -> ip_name s = n.
  Proof. intros E. destruct ok as (_ & _ & H & _). apply (H _ _ E). Qed.
  Lemma in_part1 c : In c part1 <-> exists src k, rank src = 1 /\ slookup k (acc st src) = Some c.
  Proof.
    unfold part1. rewrite in_flat_map. split.
    - intros (s & Is & Ic). apply in_spans in Is. apply in_app_iff in Ic as [Ic|Ic].
      + rewrite (acc_span s Is) in Ic. apply in_acc in Ic as (k & Ic). exists (FromSpan (ip_name s)), k. split; [reflexivity|exact Ic].
      + apply (in_of_span_events s c Is) in Ic as (e & k & Ic). exists (FromSpanEvent (ip_name s) e), k. split; [reflexivity|exact Ic].
    - intros (src & k & R & E). assert (Hs : exists n s, slookup n (st_spans st) = Some s /\ (src = FromSpan n \/ exists e, src = FromSpanEvent n e)).
      { destruct src as [|n|n e|n|n]; try discriminate R; cbn [acc] in E; (destruct (slookup n (st_spans st)) as [s|] eqn:Es; [|discriminate E]); exists n, s; (split; [exact Es|]); [left|right; exists e]; reflexivity. }
      destruct Hs as (n & s & Es & Hs). pose proof (span_found n s Es) as <-. exists s. split; [apply in_spans, Es|]. apply in_app_iff. destruct Hs as [->|(e & ->)].
      + left. rewrite (acc_span s Es). apply in_acc. exists k. exact E.
      + right. apply (in_of_span_events s c Es). exists e, k. exact E.
  Qed.
  Lemma in_part2 c : In c part2 <-> exists src k, rank src = 2 /\ slookup k (acc st src) = Some c.
  Proof.
    unfold part2. rewrite in_flat_map. split.
    - intros (m & Im & Ic). apply in_metrics in Im. rewrite (acc_metric m Im) in Ic. apply in_acc in Ic as (k & Ic). exists (FromMetric (im_name m)), k. split; [reflexivity|exact Ic].
    - intros (src & k & R & E). destruct src as [|n|n e|n|n]; try discriminate R. assert (Hm : exists m, slookup n (st_metrics st) = Some m) by (cbn [acc] in E; destruct (slookup n (st_metrics st)) as [m|]; [eauto|discriminate E]).
      destruct Hm as (m & Em). assert (Nm : im_name m = n) by (destruct ok as (_ & _ & _ & _ & H & _); apply (H _ _ Em)). subst n.
      exists m. split; [apply in_metrics, Em|]. rewrite (acc_metric m Em). apply in_acc. exists k. exact E.
  Qed.
  Lemma in_part3 c : In c part3 <-> exists src k, rank src = 3 /\ slookup k (acc st src) = Some c.
  Proof.
    unfold part3. rewrite in_flat_map. split.
    - intros (m & Im & Ic). apply in_events in Im. rewrite (acc_event m Im) in Ic. apply in_acc in Ic as (k & Ic). exists (FromEvent (ib_name m)), k. split; [reflexivity|exact Ic].
    - intros (src & k & R & E). destruct src as [|n|n e|n|n]; try discriminate R. assert (Hm : exists m, slookup n (st_events st) = Some m) by (cbn [acc] in E; unfold ev_acc in E; destruct (slookup n (st_events st)) as [m|]; [eauto|discriminate E]).
      destruct Hm as (m & Em). assert (Nm : ib_name m = n) by (destruct ok as (_ & _ & _ & _ & _ & _ & H); apply (H _ _ Em)). subst n.
      exists m. split; [apply in_events, Em|]. rewrite (acc_event m Em). apply in_acc. exists k. exact E.
  Qed.
  Lemma part4_sub c : In c part4 -> In c part1.
  Proof. unfold part4, part1. rewrite !in_flat_map. intros (s & Is & Ic). exists s. split; [exact Is|apply in_app_iff; right; exact Ic]. Qed.
  Lemma in_part r c : In c (nth r [part0; part1; part2; part3] []) -> exists src k, rank src = r /\ slookup k (acc st src) = Some c.
  Proof.
    destruct r as [|[|[|[|r]]]]; cbn [nth]; intros I.
    - apply in_part0 in I as (k & E). exists FromResource, k. auto.
    - apply in_part1, I.
    - apply in_part2, I.
    - apply in_part3, I.
    - destruct r; destruct I.
  Qed.
  Lemma part_in src k c : slookup k (acc st src) = Some c -> In c (nth (rank src) [part0; part1; part2; part3] []).
  Proof.
    intros E. destruct src as [|n|n e|n|n]; cbn [rank nth]; [apply in_part0; eauto|apply in_part1|apply in_part1|apply in_part2|apply in_part3]; eexists; exists k; (split; [|exact E]); reflexivity.
  Qed.
  Definition wanted (k : string) (c : iacc) : bool := String.eqb (ic_id c) k.
  Lemma acc_id src k c : slookup k (acc st src) = Some c -> ic_id c = k.
  Proof. intros E. apply acc_stream in E as (a & r & _ & ->). reflexivity. Qed.
  Lemma missing k r : r < 4 -> find (wanted k) (nth r [part0; part1; part2; part3] []) = None -> forall src, rank src = r -> stream samples src k = [].
  Proof.
    intros _ F src R. apply acc_none. destruct (slookup k (acc st src)) as [c|] eqn:E; [|reflexivity]. pose proof (part_in src k c E) as I. rewrite R in I.
    pose proof (List.find_none _ _ F c I) as X. unfold wanted in X. rewrite (acc_id _ _ _ E), String.eqb_refl in X. discriminate.
  Qed.
  Lemma found_parts k c : find (wanted k) parts = Some c -> exists src, slookup k (acc st src) = Some c /\ forall src', rank src' < rank src -> stream samples src' k = [].
  Proof.
    assert (G : forall r, find (wanted k) (nth r [part0; part1; part2; part3] []) = Some c -> (forall r', r' < r -> find (wanted k) (nth r' [part0; part1; part2; part3] []) = None) ->
      r < 4 -> exists src, slookup k (acc st src) = Some c /\ forall src', rank src' < rank src -> stream samples src' k = []).
    { intros r F B L. apply find_some in F as (I & W). apply in_part in I as (src & k' & R & E). apply String.eqb_eq in W. rewrite (acc_id _ _ _ E) in W. subst k'. exists src. split; [exact E|].
      intros src' Lt. rewrite R in Lt. apply (missing k (rank src')); [lia|apply B, Lt|reflexivity]. }
    unfold parts. rewrite !find_app. destruct (find (wanted k) part0) as [x|] eqn:F0.
    { intros H. injection H as ->. apply (G 0); [exact F0|lia|lia]. }
    destruct (find (wanted k) part1) as [x|] eqn:F1.
    { intros H. injection H as ->. apply (G 1); [exact F1| |lia]. intros [|r'] L; [exact F0|lia]. }
    destruct (find (wanted k) part2) as [x|] eqn:F2.
    { intros H. injection H as ->. apply (G 2); [exact F2| |lia]. intros [|[|r']] L; [exact F0|exact F1|lia]. }
    destruct (find (wanted k) part3) as [x|] eqn:F3.
    { intros H. injection H as ->. apply (G 3); [exact F3| |lia]. intros [|[|[|r']]] L; [exact F0|exact F1|exact F2|lia]. }
    intros H. apply find_some in H as (I & W). apply part4_sub in I. pose proof (List.find_none _ _ F1 c I). congruence.
  Qed.
  Lemma found_somewhere src k : stream samples src k <> [] -> find (wanted k) parts <> None.
  Proof.
    intros N F. apply N. apply acc_none. destruct (slookup k (acc st src)) as [c|] eqn:E; [|reflexivity]. pose proof (part_in src k c E) as I.
    assert (I' : In c parts). { unfold parts. rewrite !in_app_iff. destruct src; cbn [rank nth] in I; tauto. }
    pose proof (List.find_none _ _ F c I') as X. unfold wanted in X. rewrite (acc_id _ _ _ E), String.eqb_refl in X. discriminate.
  Qed.
  Lemma final_lookup k : slookup k final_defs = option_map def_of (find (wanted k) parts).
  Proof. unfold final_defs. rewrite collect_lookup. reflexivity. Qed.
  Lemma final_nodup : NoDup (map fst final_defs).
  Proof. apply collect_nodup. constructor. Qed.
  Lemma final_key k d : slookup k final_defs = Some d -> ad_key d = k.
  Proof. rewrite final_lookup. destruct (find (wanted k) parts) as [c|] eqn:F; [|discriminate]. intros H. injection H as <-. apply find_some in F as (_ & W). apply String.eqb_eq, W. Qed.
  Lemma in_defs d : In d (s2d_attributes (to_spec order st)) <-> slookup (ad_key d) final_defs = Some d.
  Proof.
    rewrite defs_eq. rewrite <- (values_named ad_key ["defs"] final_defs d final_nodup final_key). split; apply Permutation_in; [apply Permutation_sym|]; apply stable_sort_perm.
  Qed.
  Lemma defs_sorted : StronglySorted str_lt (map ad_key (s2d_attributes (to_spec order st))).
  Proof. rewrite defs_eq. apply strict_sort, values_distinct; [exact final_nodup|exact final_key]. Qed.

  (* the events *)
  Definition span_pairs s := map (fun e => (ib_name e, keys order (event_tag s e) (ib_attributes e))) (events_of s).
  Definition event_pairs := map (fun e => (ib_name e, keys order ["event"; ib_name e] (ib_attributes e))) events.
  Definition merged := fold_left add_pair (app event_pairs (flat_map span_pairs spans)) [].
  Lemma events_eq : s2d_events (to_spec order st) = stable_sort (fun a b => str_leb (vd_name a) (vd_name b))
    (map (fun nl => {| vd_name := fst nl; vd_attributes := map inferred_ref (dedup (sort_names (snd nl))); vd_assocs := []; vd_level := None; vd_common := inferred_common |}) (order ["merged"] _ merged)).
  Proof.
    unfold to_spec. cbn [s2d_events]. f_equal. f_equal. f_equal. unfold merged. rewrite fold_left_app, <- fold_flat.
    rewrite (fold_map (fun m p => sinsert (fst p) (snd p) m) (fun e => (ib_name e, keys order ["event"; ib_name e] (ib_attributes e)))).
    fold events. fold event_pairs. rewrite merge_fresh.
    - fold spans. apply fold_left_ext. intros m s. unfold span_pairs, events_of, event_tag. rewrite <- (fold_map add_pair (fun e => (ib_name e, keys order ["span event"; ip_name s; ib_name e] (ib_attributes e)))). reflexivity.
    - unfold event_pairs. rewrite map_map. cbn [fst]. destruct ok as (_ & _ & _ & _ & _ & N & H). apply values_distinct; [exact N|]. intros k x E. apply (H k x E).
    - reflexivity.
  Qed.
  Lemma merged_nodup : NoDup (map fst merged).
  Proof. unfold merged. apply merge_facts. constructor. Qed.
  Lemma in_pairs n l : In (n, l) (app event_pairs (flat_map span_pairs spans)) ->
    exists src, (src = FromEvent n \/ exists m, src = FromSpanEvent m n) /\ forall x, In x l <-> slookup x (acc st src) <> None.
  Proof.
    intros I. apply in_app_iff in I as [I|I].
    - unfold event_pairs in I. apply in_map_iff in I as (e & E & Ie). injection E as <- <-. apply in_events in Ie. exists (FromEvent (ib_name e)). split; [left; reflexivity|]. intros x. rewrite keys_in, (acc_event e Ie). reflexivity.
    - apply in_flat_map in I as (s & Is & I). unfold span_pairs in I. apply in_map_iff in I as (e & E & Ie). injection E as <- <-. apply in_spans in Is. apply (in_span_events s e _ Is) in Ie.
      exists (FromSpanEvent (ip_name s) (ib_name e)). split; [right; exists (ip_name s); reflexivity|]. intros x. rewrite keys_in, (acc_span_event s e Is Ie). reflexivity.
  Qed.
  Lemma pairs_event n : slookup n (st_events st) <> None -> exists l, In (n, l) (app event_pairs (flat_map span_pairs spans)) /\ forall x, In x l <-> slookup x (acc st (FromEvent n)) <> None.
  Proof.
    intros N. destruct (slookup n (st_events st)) as [e|] eqn:E; [|destruct (N eq_refl)]. assert (Nm : ib_name e = n) by (destruct ok as (_ & _ & _ & _ & _ & _ & H); apply (H _ _ E)). subst n.
    eexists. split; [apply in_app_iff; left; unfold event_pairs; apply in_map_iff; exists e; split; [reflexivity|apply in_events, E]|]. intros x. rewrite keys_in, (acc_event e E). reflexivity.
  Qed.
  Lemma pairs_span m s n : slookup m (st_spans st) = Some s -> slookup n (ip_events s) <> None ->
    exists l, In (n, l) (app event_pairs (flat_map span_pairs spans)) /\ forall x, In x l <-> slookup x (acc st (FromSpanEvent m n)) <> None.
  Proof.
    intros Es N. pose proof (span_found m s Es) as <-. destruct (slookup n (ip_events s)) as [e|] eqn:E; [|destruct (N eq_refl)].
    assert (Nm : ib_name e = n). { destruct ok as (_ & _ & H & _). destruct (H _ _ Es) as (_ & _ & _ & Hb). apply (Hb _ _ E). } subst n.
    eexists. split; [apply in_app_iff; right; apply in_flat_map; exists s; split; [apply in_spans, Es|unfold span_pairs; apply in_map_iff; exists e; split; [reflexivity|apply (in_span_events s e _ Es), E]]|].
    intros x. rewrite keys_in, (acc_span_event s e Es E). reflexivity.
  Qed.
  Lemma merged_names n : slookup n merged <> None <-> event_seen samples n.
  Proof.
    destruct (merge_facts (app event_pairs (flat_map span_pairs spans)) [] (NoDup_nil _)) as (_ & F). destruct (F n) as (A & _). fold merged in A. rewrite A. unfold event_seen. split.
    - intros [H|(l & I)]; [destruct (H eq_refl)|]. apply in_app_iff in I as [I|I].
      + left. unfold event_pairs in I. apply in_map_iff in I as (e & E & Ie). injection E as <- _. apply in_events in Ie. apply (events_present to_f64). congruence.
      + right. apply in_flat_map in I as (s & Is & I). unfold span_pairs in I. apply in_map_iff in I as (e & E & Ie). injection E as <- _. apply in_spans in Is. apply (in_span_events s e _ Is) in Ie.
        exists (ip_name s). apply (span_events_present to_f64). exists s. split; [exact Is|congruence].
    - intros [H|(m & k & l & ev & l' & I & I')].
      + apply (events_present to_f64) in H. destruct (pairs_event n H) as (l & I & _). right. exists l. exact I.
      + destruct (proj2 (span_events_present to_f64 samples m n)) as (s & Es & H); [exists k, l, ev, l'; auto|]. destruct (pairs_span m s n Es H) as (l0 & I0 & _). right. exists l0. exact I0.
  Qed.
  Lemma merged_members n l x : slookup n merged = Some l -> (In x l <-> exists a, ia_name a = x /\ (observed samples (FromEvent n) a \/ exists m, observed samples (FromSpanEvent m n) a)).
  Proof.
    intros E. destruct (merge_facts (app event_pairs (flat_map span_pairs spans)) [] (NoDup_nil _)) as (_ & F). destruct (F n) as (_ & B). fold merged in B. rewrite (B l x E). split.
    - intros [(l0 & X & _)|(l0 & I & I')]; [discriminate|]. apply in_pairs in I as (src & Hs & H). apply H, acc_some in I' as (a & Na & O). exists a. split; [exact Na|].
      destruct Hs as [->|(m & ->)]; [left; exact O|right; exists m; exact O].
    - intros (a & Na & O). right. destruct O as [O|(m & O)].
      + assert (X : slookup x (acc st (FromEvent n)) <> None) by (apply acc_some; exists a; auto).
        destruct (pairs_event n) as (l0 & I & H); [intros Y; apply X; cbn [acc]; unfold ev_acc; rewrite Y; reflexivity|]. exists l0. split; [exact I|apply H, X].
      + assert (X : slookup x (acc st (FromSpanEvent m n)) <> None) by (apply acc_some; exists a; auto).
        destruct (slookup m (st_spans st)) as [s|] eqn:Es; [|destruct X; cbn [acc]; rewrite Es; reflexivity].
        destruct (pairs_span m s n Es) as (l0 & I & H); [intros Y; apply X; cbn [acc]; rewrite Es; unfold ev_acc; rewrite Y; reflexivity|]. exists l0. split; [exact I|apply H, X].
  Qed.
End File.
