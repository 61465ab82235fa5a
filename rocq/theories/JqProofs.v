(* Proofs about the jq functions. *)
From Coq Require Import String Ascii Bool Arith Lia Permutation Sorted List.
Import ListNotations.
From Verif Require Import Base BaseProofs BaseProofs2 Json Str JqModel JqSpec.
From Verif Require InferProofs PropNaming.
Local Open Scope string_scope.

(* ---------- sublists ---------- *)
Section Chosen.
  Context {A B : Type}.
  Lemma chosen_iff (P Q : A -> Prop) l l' : (forall x, In x l -> (P x <-> Q x)) -> chosen P l l' -> chosen Q l l'.
  Proof.
    intros H C. induction C as [|x l l' Px C IH|x l l' Px C IH]; [constructor|apply chosen_keep|apply chosen_drop].
    - apply H; [left; reflexivity|exact Px].
    - apply IH. intros y Hy. apply H. right. exact Hy.
    - intros Q'. apply Px, H; [left; reflexivity|exact Q'].
    - apply IH. intros y Hy. apply H. right. exact Hy.
  Qed.
  Lemma chosen_in (P : A -> Prop) l l' : chosen P l l' -> forall x, In x l' -> In x l /\ P x.
  Proof. intros C. induction C as [|x l l' Px C IH|x l l' Px C IH]; intros y Hy; [destruct Hy| |]; [destruct Hy as [<-|Hy]; [split; [left; reflexivity|exact Px]|]|]; destruct (IH y Hy); split; try right; assumption. Qed.
  Lemma chosen_comp (P Q : A -> Prop) l l1 : chosen P l l1 -> forall l2, chosen Q l1 l2 -> chosen (fun x => P x /\ Q x) l l2.
  Proof.
    intros C. induction C as [|x l l' Px C IH|x l l' Px C IH]; intros l2 D.
    - inversion D; subst. constructor.
    - inversion D as [|? ? ? Qx D'|? ? ? Qx D']; subst; [apply chosen_keep; auto|apply chosen_drop; [intros (_ & H); exact (Qx H)|auto]].
    - apply chosen_drop; [intros (H & _); exact (Px H)|auto].
  Qed.
  Lemma chosen_all (P : A -> Prop) l : (forall x, In x l -> P x) -> chosen P l l.
  Proof. induction l as [|x l IH]; intros H; [constructor|]. apply chosen_keep; [apply H; left; reflexivity|apply IH; intros y Hy; apply H; right; exact Hy]. Qed.
  Lemma chosen_back (R : A -> B -> Prop) (P : A -> Prop) (P' : B -> Prop) l l' : Forall2 R l l' -> (forall x x', R x x' -> (P x <-> P' x')) ->
    forall k', chosen P' l' k' -> exists k, chosen P l k /\ Forall2 R k k'.
  Proof.
    intros F H. induction F as [|x x' l l' Rx F IH]; intros k' C; inversion C as [|? ? ? Px C'|? ? ? Px C']; subst.
    - exists []. split; constructor.
    - destruct (IH _ C') as (k & K & G). exists (x :: k). split; [apply chosen_keep; [apply (H _ _ Rx), Px|exact K]|constructor; assumption].
    - destruct (IH _ C') as (k & K & G). exists k. split; [apply chosen_drop; [rewrite (H _ _ Rx); exact Px|exact K]|exact G].
  Qed.
  Lemma forall2_comp {C} (R : A -> B -> Prop) (S : B -> C -> Prop) (T : A -> C -> Prop) l m n :
    (forall x y z, R x y -> S y z -> T x z) -> Forall2 R l m -> Forall2 S m n -> Forall2 T l n.
  Proof. intros H F. revert n. induction F as [|x y l m Rx F IH]; intros n G; inversion G; subst; constructor; eauto. Qed.
  Lemma forall2_impl (R S : A -> B -> Prop) l m : (forall x y, R x y -> S x y) -> Forall2 R l m -> Forall2 S l m.
  Proof. intros H F. induction F; constructor; auto. Qed.
End Chosen.

(* ---------- fields ---------- *)
Lemma the_set k x m k' : the k' (JObj (sinsert k x m)) = if String.eqb k' k then x else the k' (JObj m).
Proof. unfold the. rewrite InferProofs.slookup_insert. destruct (String.eqb k' k); reflexivity. Qed.
Lemma jfield_obj k v : object v -> jfield k v = Some (the k v).
Proof. intros (m & ->). reflexivity. Qed.
Lemma jfield_null k v : null_or_object v -> jfield k v = Some (the k v).
Proof. intros [->|(m & ->)]; reflexivity. Qed.
Lemma carries_lookup k m : carries k (JObj m) <-> slookup k m <> None.
Proof.
  unfold carries. rewrite slookup_none. split.
  - intros (m' & x & E & I) H. injection E as <-. apply H, in_map_iff. exists (k, x). auto.
  - intros H. assert (D : In k (map fst m)) by (destruct (in_dec string_dec k (map fst m)); [assumption|contradiction]). apply in_map_iff in D as ([k' x] & <- & I). exists m, x. auto.
Qed.
Lemma jhas_ok k v : object v -> (jhas k v = Some true /\ carries k v) \/ (jhas k v = Some false /\ ~ carries k v).
Proof. intros (m & ->). rewrite carries_lookup. cbn [jhas]. destruct (slookup k m); [left|right]; (split; [reflexivity|congruence]). Qed.
Lemma carries_set k x m k' : carries k' (JObj (sinsert k x m)) <-> k' = k \/ carries k' (JObj m).
Proof. rewrite !carries_lookup, InferProofs.slookup_insert. destruct (String.eqb_spec k' k) as [->|N]; [split; [auto|congruence]|]. split; [auto|intros [H|H]; [contradiction|exact H]]. Qed.
Lemma get_ok k v s : the k v = JStr s -> get k v = Some s.
Proof. destruct v; cbn; try discriminate. intros ->. reflexivity. Qed.

(* agreement on everything the options look at *)
Definition sim (v v' : json) : Prop :=
  the "stability" v' = the "stability" v /\ the "annotations" v' = the "annotations" v /\ (carries "deprecated" v' <-> carries "deprecated" v).
Definition insens (P : json -> Prop) : Prop := forall v v', sim v v' -> (P v <-> P v').
Lemma wanted_insens o : insens (wanted o).
Proof. intros v v' (S & A & D). unfold wanted, unwanted_stability, annotated_away. rewrite S, A, D. reflexivity. Qed.

(* ---------- passes ---------- *)
Definition decides (p : json -> option bool) (P : json -> Prop) : Prop :=
  forall v, plain v -> (p v = Some true /\ P v) \/ (p v = Some false /\ ~ P v).
Lemma jselect_ok p P l : decides p P -> Forall plain l -> exists l', jselect p l = Some l' /\ chosen P l l'.
Proof.
  intros D F. induction F as [|v l H F IH]; [exists []; split; [reflexivity|constructor]|]. destruct IH as (l' & E & C). cbn [jselect]. rewrite E.
  destruct (D v H) as [(-> & Y)|(-> & Y)]; eexists; (split; [reflexivity|]); [apply chosen_keep|apply chosen_drop]; assumption.
Qed.
Definition red_type (P : json -> Prop) (t t' : json) : Prop :=
  match t with
  | JObj _ => (forall k, k <> "members" -> the k t' = the k t) /\
              exists ms ms', the "members" t = JArr ms /\ the "members" t' = JArr ms' /\ chosen P ms ms'
  | _ => t' = t
  end.
Definition red (P : json -> Prop) (v v' : json) : Prop :=
  red_type P (the "type" v) (the "type" v') /\ forall k, k <> "type" -> the k v' = the k v /\ (carries k v' <-> carries k v).
Lemma red_sim P v v' : red P v v' -> sim v v'.
Proof. intros (_ & H). unfold sim. split; [apply H; discriminate|]. split; [apply H; discriminate|]. apply H; discriminate. Qed.
Lemma plain_same v v' : object v' -> the "annotations" v' = the "annotations" v -> plain v -> plain v'.
Proof. intros O E (_ & A & C). unfold plain. rewrite E. auto. Qed.
Lemma members_ok p P v : decides p P -> well_typed v -> exists v', members_pass p v = Some v' /\ red P v v' /\ well_typed v'.
Proof.
  intros D ((O & A & C) & T). unfold members_pass. rewrite (jfield_obj _ _ O).
  destruct (the "type" v) as [| | | | |t] eqn:Et;
    try (exists v; split; [reflexivity|]; split; [split; [rewrite Et; reflexivity|intros k _; split; reflexivity]|split; [exact (conj O (conj A C))|rewrite Et; exact I]]).
  destruct T as (ms & Em & F). rewrite (jfield_obj "members" (JObj t)) by (exists t; reflexivity). rewrite Em. destruct (jselect_ok p P ms D F) as (ms' & -> & Ch). cbn [jset]. destruct O as (m & ->). cbn [jset].
  eexists. split; [reflexivity|]. assert (Tp : the "type" (JObj (sinsert "type" (JObj (sinsert "members" (JArr ms') t)) m)) = JObj (sinsert "members" (JArr ms') t)) by (rewrite the_set, String.eqb_refl; reflexivity). split; [split|split].
  - rewrite Et, Tp. cbn [red_type]. split.
    + intros k N. rewrite the_set. destruct (String.eqb_spec k "members"); [contradiction|reflexivity].
    + exists ms, ms'. split; [exact Em|]. split; [rewrite the_set, String.eqb_refl; reflexivity|exact Ch].
  - intros k N. rewrite the_set, carries_set. destruct (String.eqb_spec k "type"); [contradiction|]. split; [reflexivity|]. split; [intros [H|H]; [contradiction|exact H]|auto].
  - apply (plain_same (JObj m)); [eexists; reflexivity|rewrite the_set; reflexivity|]. split; [eexists; reflexivity|split; assumption].
  - rewrite Tp. exists ms'. rewrite the_set, String.eqb_refl. split; [reflexivity|]. apply Forall_forall. intros x Hx. apply (chosen_in _ _ _ Ch) in Hx as (Hx & _). rewrite Forall_forall in F. auto.
Qed.
Definition passed (P : json -> Prop) (l out : list json) : Prop := exists kept, chosen P l kept /\ Forall2 (red P) kept out.
Lemma mapm_ok {A B} (f : A -> option B) (W : A -> Prop) (R : A -> B -> Prop) (W' : B -> Prop) l :
  (forall x, W x -> exists y, f x = Some y /\ R x y /\ W' y) -> Forall W l -> exists l', mapm f l = Some l' /\ Forall2 R l l' /\ Forall W' l'.
Proof.
  intros H F. induction F as [|x l Wx F IH]; [exists []; repeat constructor|]. destruct IH as (l' & E & G & K). destruct (H x Wx) as (y & Ey & Ry & Wy). exists (y :: l'). cbn [mapm]. rewrite Ey, E. repeat constructor; assumption.
Qed.
Lemma forall_chosen (W P : json -> Prop) l l' : Forall W l -> chosen P l l' -> Forall W l'.
Proof. intros F C. apply Forall_forall. intros x Hx. rewrite Forall_forall in F. apply F. apply (chosen_in _ _ _ C x Hx). Qed.
Lemma well_plain l : Forall well_typed l -> Forall plain l.
Proof. apply Forall_impl. intros v (H & _). exact H. Qed.
Lemma pass_ok p P l : decides p P -> Forall well_typed l -> exists out, pass p l = Some out /\ passed P l out /\ Forall well_typed out.
Proof.
  intros D F. unfold pass. destruct (jselect_ok p P l D (well_plain _ F)) as (kept & -> & C).
  destruct (mapm_ok (members_pass p) well_typed (red P) well_typed kept (fun x W => members_ok p P x D W) (forall_chosen _ _ _ _ F C)) as (out & E & G & K). exists out. split; [exact E|]. split; [exists kept; auto|exact K].
Qed.
Lemma red_type_comp P Q t t' t'' : red_type P t t' -> red_type Q t' t'' -> red_type (fun x => P x /\ Q x) t t''.
Proof.
  destruct t as [| | | | |m]; cbn [red_type]; try (intros -> H; exact H).
  intros (H1 & ms & ms1 & E1 & E2 & C1) H2. destruct t' as [| | | | |m']; cbn in E2; try discriminate. destruct H2 as (H2 & ms1' & ms2 & E3 & E4 & C2). cbn [the] in *. rewrite E2 in E3. injection E3 as <-. split.
  - intros k N. rewrite (H2 k N). apply H1, N.
  - exists ms, ms2. split; [exact E1|]. split; [exact E4|]. eapply chosen_comp; eassumption.
Qed.
Lemma passed_comp P Q l out out' : insens Q -> passed P l out -> passed Q out out' -> passed (fun x => P x /\ Q x) l out'.
Proof.
  intros I (k1 & C1 & F1) (k2 & C2 & F2). destruct (chosen_back (red P) Q Q k1 out F1 (fun x x' R => I x x' (red_sim _ _ _ R)) _ C2) as (k & C & F).
  exists k. split; [eapply chosen_comp; eassumption|]. eapply forall2_comp; [|exact F|exact F2]. intros x y z (T1 & H1) (T2 & H2). split; [eapply red_type_comp; eassumption|]. intros n N. destruct (H1 n N) as (A & B), (H2 n N) as (A' & B'). rewrite A', A, B', B. split; reflexivity.
Qed.
Lemma red_type_iff P Q t t' : (forall x, P x <-> Q x) -> red_type P t t' -> red_type Q t t'.
Proof.
  intros H. destruct t; cbn [red_type]; try (intros E; exact E). intros (A & ms & ms' & B & C & D). split; [exact A|]. exists ms, ms'. split; [exact B|]. split; [exact C|]. eapply chosen_iff; [|exact D]. intros x _. apply H.
Qed.
Lemma passed_iff P Q l out : (forall x, P x <-> Q x) -> passed P l out -> passed Q l out.
Proof.
  intros H (k & C & F). exists k. split; [eapply chosen_iff; [|exact C]; intros x _; apply H|]. eapply forall2_impl; [|exact F]. intros a b (T & R). split; [eapply red_type_iff; eassumption|exact R].
Qed.
Lemma passed_id (P : json -> Prop) l : (forall x, P x) -> Forall well_typed l -> passed P l l.
Proof.
  intros H F. exists l. split; [apply chosen_all; auto|]. induction F as [|v l (_ & T) F IH]; constructor; [|exact IH]. split; [|intros k _; split; reflexivity].
  destruct (the "type" v) as [| | | | |t]; cbn [red_type]; try reflexivity. destruct T as (ms & E & _). split; [reflexivity|]. exists ms, ms. split; [exact E|]. split; [exact E|]. apply chosen_all. auto.
Qed.

(* ---------- the filters ---------- *)
Lemma is_stable_ok : decides is_stable (fun v => the "stability" v = JStr "stable").
Proof.
  intros v (O & _). unfold is_stable. rewrite (jfield_obj _ _ O). destruct (the "stability" v) as [| | |s| |]; try (right; split; [reflexivity|discriminate]).
  destruct (String.eqb_spec s "stable") as [->|N]; [left; auto|right; split; [reflexivity|congruence]].
Qed.
Lemma jindex_ok l x : jindex l x = true <-> (exists s, x = JStr s /\ In (JStr s) l) \/ (x = JNull /\ In JNull l).
Proof.
  unfold jindex. rewrite existsb_exists. split.
  - intros (y & I & E). destruct x; try discriminate; destruct y; try discriminate; [right; auto|]. apply String.eqb_eq in E as <-. left. eauto.
  - intros [(s & -> & I)|(-> & I)]; [exists (JStr s)|exists JNull]; (split; [exact I|]); [apply String.eqb_refl|reflexivity].
Qed.
Lemma expand_ok l v : jindex (expand_stability l) (the "stability" v) = true <-> unwanted_stability l v.
Proof.
  unfold expand_stability, unwanted_stability. set (extra := [JStr "development"; JStr "alpha"; JStr "beta"; JStr "release_candidate"; JStr ""; JNull]).
  destruct (jindex l (JStr "experimental")) eqn:E.
  - assert (E' : In (JStr "experimental") l) by (apply jindex_ok in E as [(s & H & I)|(H & _)]; [injection H as <-; exact I|discriminate]).
    rewrite jindex_ok. setoid_rewrite in_app_iff. split.
    + intros [(s & H & [I|I])|(H & [I|I])]; [left; eauto|right; right; rewrite H; auto|right; left; auto|right; right; rewrite H; auto].
    + intros [(s & H & I)|[(H & I)|(_ & I)]]; [left; eauto|right; auto|]. destruct I as [I|[I|[I|[I|[I|[I|[]]]]]]]; rewrite <- I; try (left; eexists; split; [reflexivity|right; cbn; tauto]). right. split; [reflexivity|right; cbn; tauto].
  - rewrite jindex_ok. split; [intros [H|H]; auto|]. intros [H|[H|(H & _)]]; auto. exfalso. assert (jindex l (JStr "experimental") = true) by (apply jindex_ok; left; eauto). congruence.
Qed.
Lemma not_excluded_ok e : decides (not_excluded e) (fun v => ~ unwanted_stability e v).
Proof.
  intros v (O & _). unfold not_excluded. rewrite (jfield_obj _ _ O). pose proof (expand_ok e v) as X. destruct (jindex (expand_stability e) (the "stability" v)) eqn:E; [right|left]; (split; [reflexivity|]).
  - intros N. apply N, X. reflexivity.
  - intros N. apply X in N. discriminate.
Qed.
Lemma not_annotated_ok : decides not_annotated (fun v => ~ annotated_away v).
Proof.
  intros v (O & A & C). unfold not_annotated, annotated_away. rewrite (jfield_obj _ _ O).
  destruct A as [A|(ma & A)]; rewrite A in *.
  - left. split; [reflexivity|]. cbn. tauto.
  - rewrite (jfield_obj "code_generation" (JObj ma)) by (eexists; reflexivity).
    destruct C as [C|(mc & C)]; rewrite C in *; [left; split; [reflexivity|]; cbn; tauto|]. rewrite (jfield_obj "exclude" (JObj mc)) by (eexists; reflexivity).
    destruct (the "exclude" (JObj mc)) as [|[]| | | |]; try (left; split; [reflexivity|]; tauto); right; (split; [reflexivity|]); intros H; apply H; split; discriminate.
Qed.
Lemma not_deprecated_ok : decides (fun v => option_map negb (jhas "deprecated" v)) (fun v => ~ carries "deprecated" v).
Proof. intros v (O & _). destruct (jhas_ok "deprecated" v O) as [(-> & H)|(-> & H)]; [right|left]; (split; [reflexivity|tauto]). Qed.

Lemma stage_ok (b : bool) p (P Q : json -> Prop) l : decides p P -> (b = true -> forall x, Q x <-> P x) -> (b = false -> forall x, Q x) -> Forall well_typed l ->
  exists out, (if b then pass p l else Some l) = Some out /\ passed Q l out /\ Forall well_typed out.
Proof.
  intros D T F W. destruct b.
  - destruct (pass_ok p P l D W) as (out & E & H & K). exists out. split; [exact E|]. split; [|exact K]. eapply passed_iff; [|exact H]. intros x. symmetry. apply T. reflexivity.
  - exists l. split; [reflexivity|]. split; [apply passed_id; auto|exact W].
Qed.
Lemma filters_ok o l : Forall well_typed l -> exists out, filters o l = Some out /\ passed (wanted o) l out /\ Forall well_typed out.
Proof.
  intros W. unfold filters, stability_filter.
  destruct (stage_ok (op_stable_only o) is_stable _ (fun v => op_stable_only o = true -> the "stability" v = JStr "stable") l is_stable_ok) as (l1 & -> & P1 & W1); [intros ->; tauto|intros ->; discriminate|exact W|].
  set (e := op_exclude_stability o).
  assert (S2 : exists l2, (match e with Some e => pass (not_excluded e) l1 | None => Some l1 end) = Some l2 /\ passed (fun v => forall st, e = Some st -> ~ unwanted_stability st v) l1 l2 /\ Forall well_typed l2).
  { destruct e as [st|].
    - destruct (pass_ok _ _ l1 (not_excluded_ok st) W1) as (l2 & E & P & W2). exists l2. split; [exact E|]. split; [|exact W2]. eapply passed_iff; [|exact P]. intros x. split; [intros H s Es; injection Es as <-; exact H|auto].
    - exists l1. split; [reflexivity|]. split; [apply passed_id; [discriminate|exact W1]|exact W1]. }
  destruct S2 as (l2 & -> & P2 & W2). unfold code_generation_exclude_filter.
  assert (S3 : exists l3, (match op_ignore_annotations o with Some _ => Some l2 | None => pass not_annotated l2 end) = Some l3 /\ passed (fun v => op_ignore_annotations o = None -> ~ annotated_away v) l2 l3 /\ Forall well_typed l3).
  { destruct (op_ignore_annotations o).
    - exists l2. split; [reflexivity|]. split; [apply passed_id; [discriminate|exact W2]|exact W2].
    - destruct (pass_ok _ _ l2 not_annotated_ok W2) as (l3 & E & P & W3). exists l3. split; [exact E|]. split; [|exact W3]. eapply passed_iff; [|exact P]. intros x. tauto. }
  destruct S3 as (l3 & -> & P3 & W3). unfold deprecated_filter.
  assert (S4 : exists l4, (match op_exclude_deprecated o with Some true => pass (fun v => option_map negb (jhas "deprecated" v)) l3 | _ => Some l3 end) = Some l4 /\ passed (fun v => op_exclude_deprecated o = Some true -> ~ carries "deprecated" v) l3 l4 /\ Forall well_typed l4).
  { destruct (op_exclude_deprecated o) as [[]|].
    - destruct (pass_ok _ _ l3 not_deprecated_ok W3) as (l4 & E & P & W4). exists l4. split; [exact E|]. split; [|exact W4]. eapply passed_iff; [|exact P]. intros x. tauto.
    - exists l3. split; [reflexivity|]. split; [apply passed_id; [discriminate|exact W3]|exact W3].
    - exists l3. split; [reflexivity|]. split; [apply passed_id; [discriminate|exact W3]|exact W3]. }
  destruct S4 as (l4 & E4 & P4 & W4). exists l4. split; [exact E4|]. split; [|exact W4].
  assert (I2 : insens (fun v => forall st, e = Some st -> ~ unwanted_stability st v)) by (intros v v' (S & A & D); unfold unwanted_stability; rewrite S; reflexivity).
  assert (I3 : insens (fun v => op_ignore_annotations o = None -> ~ annotated_away v)) by (intros v v' (S & A & D); unfold annotated_away; rewrite A; reflexivity).
  assert (I4 : insens (fun v => op_exclude_deprecated o = Some true -> ~ carries "deprecated" v)) by (intros v v' (S & A & D); rewrite D; reflexivity).
  pose proof (passed_comp _ _ _ _ _ I4 (passed_comp _ _ _ _ _ I3 (passed_comp _ _ _ _ _ I2 P1 P2) P3) P4) as P. eapply passed_iff; [|exact P]. intros x. unfold wanted. fold e. tauto.
Qed.

(* ---------- namespaces ---------- *)
Lemma any_dot s : contains "." s = false <-> forall a b, s <> a ++ "." ++ b.
Proof.
  split.
  - intros H a b ->. assert (contains "." (a ++ "." ++ b) = true) by (apply contains_spec; eauto). congruence.
  - intros H. destruct (contains "." s) eqn:E; [|reflexivity]. apply contains_spec in E as (a & b & E). destruct (H a b E).
Qed.
Lemma split_dotless s : (forall a b, s <> a ++ "." ++ b) -> split_char "." s = [s].
Proof.
  induction s as [|c s IH]; intros H; [reflexivity|]. cbn [split_char]. destruct (Ascii.eqb_spec c ".") as [->|N]; [destruct (H "" s eq_refl)|]. rewrite IH; [reflexivity|]. intros a b E. apply (H (String c a) b). rewrite E. reflexivity.
Qed.
Lemma split_dot s r : (forall a b, s <> a ++ "." ++ b) -> split_char "." (s ++ "." ++ r) = s :: split_char "." r.
Proof.
  induction s as [|c s IH]; intros H; [reflexivity|]. change (String c s ++ "." ++ r) with (String c (s ++ "." ++ r)). cbn [split_char]. destruct (Ascii.eqb_spec c ".") as [->|N]; [destruct (H "" s eq_refl)|]. rewrite IH; [reflexivity|]. intros a b E. apply (H (String c a) b). rewrite E. reflexivity.
Qed.
Lemma first_dot s : (exists a b, s = a ++ "." ++ b) -> exists a b, s = a ++ "." ++ b /\ forall x y, a <> x ++ "." ++ y.
Proof.
  induction s as [|c s IH]; intros (a & b & E); [destruct a; discriminate|]. destruct (Ascii.eqb_spec c ".") as [->|N].
  - exists "", s. split; [reflexivity|]. intros [|? ?] y; discriminate.
  - destruct a as [|d a]; cbn in E; [injection E as ->; congruence|]. injection E as <- E. destruct (IH (ex_intro _ a (ex_intro _ b E))) as (a' & b' & E2 & H). clear E. subst s. exists (String c a'), b'. split; [reflexivity|]. intros [|x xs] y E'; cbn in E'; [injection E' as -> _; congruence|]. injection E' as _ E'. exact (H xs y E').
Qed.
Lemma part_ok n s p : piece n s p <-> nth_error (split_char "." s) n = Some p.
Proof.
  split.
  - intros H. induction H as [s H|s r H|n s r p H _ IH]; [rewrite (split_dotless _ H); reflexivity|rewrite (split_dot _ _ H); reflexivity|rewrite (split_dot _ _ H); exact IH].
  - revert s; induction n as [|n IH]; intros s E; destruct (contains "." s) eqn:C.
    + apply contains_spec, first_dot in C as (a & b & -> & H). rewrite (split_dot _ _ H) in E. injection E as <-. apply piece_first, H.
    + pose proof (proj1 (any_dot _) C) as C0; clear C; rename C0 into C. rewrite (split_dotless _ C) in E. injection E as <-. apply piece_last, C.
    + apply contains_spec, first_dot in C as (a & b & -> & H). rewrite (split_dot _ _ H) in E. apply piece_next; [exact H|]. apply IH, E.
    + pose proof (proj1 (any_dot _) C) as C0; clear C; rename C0 into C. rewrite (split_dotless _ C) in E. destruct n; discriminate.
Qed.
Lemma part_some n s : (n = 0 \/ (n = 1 /\ exists a b, s = a ++ "." ++ b)) -> exists p, nth_error (split_char "." s) n = Some p.
Proof.
  intros [->|(-> & H)].
  - destruct (split_char "." s) as [|p l] eqn:E; [destruct (PropNaming.split_ne _ _ E)|]. exists p. reflexivity.
  - apply first_dot in H as (a & b & -> & H). rewrite (split_dot _ _ H). destruct (split_char "." b) as [|p l] eqn:E; [destruct (PropNaming.split_ne _ _ E)|]. exists p. reflexivity.
Qed.
Definition named (k : string) (Q : string -> string -> Prop) (v v' : json) : Prop :=
  exists s ns, the k v = JStr s /\ Q s ns /\ the "root_namespace" v' = JStr ns /\
    forall k', k' <> "root_namespace" -> the k' v' = the k' v /\ (carries k' v' <-> carries k' v).
Lemma named_sim k Q v v' : named k Q v v' -> sim v v'.
Proof. intros (s & ns & _ & _ & _ & H). unfold sim. split; [apply H; discriminate|]. split; [apply H; discriminate|]. apply H; discriminate. Qed.
Lemma add_ok f k (Q : string -> string -> Prop) v s : object v -> the k v = JStr s -> (exists ns, f s = JStr ns /\ Q s ns) ->
  exists v', add_namespace f k v = Some v' /\ named k Q v v' /\ object v'.
Proof.
  intros (m & ->) E (ns & Ef & H). unfold add_namespace. rewrite (get_ok _ _ _ E). cbn [jset]. eexists. split; [reflexivity|]. split; [|eexists; reflexivity].
  exists s, ns. split; [exact E|]. split; [exact H|]. split; [rewrite the_set, String.eqb_refl, Ef; reflexivity|]. intros k' N. rewrite the_set, carries_set. destruct (String.eqb_spec k' "root_namespace"); [contradiction|]. split; [reflexivity|]. split; [intros [X|X]; [contradiction|exact X]|auto].
Qed.
Lemma part0_ok s : exists ns, part 0 s = JStr ns /\ piece 0 s ns.
Proof. destruct (part_some 0 s) as (p & E); [auto|]. exists p. unfold part. rewrite E. split; [reflexivity|]. apply part_ok, E. Qed.
Lemma own_ok n s : n = 0 \/ n = 1 -> exists ns, (if contains "." s then part n s else JStr "other") = JStr ns /\ own_piece n s ns.
Proof.
  intros H. unfold own_piece. destruct (contains "." s) eqn:C.
  - apply contains_spec in C as C'. destruct (part_some n s) as (p & E); [destruct H; auto|]. exists p. unfold part. rewrite E. split; [reflexivity|]. left. split; [exact C'|apply part_ok, E].
  - pose proof (proj1 (any_dot _) C) as C0; clear C; rename C0 into C. exists "other". split; [reflexivity|]. right. auto.
Qed.
Lemma piece_fun n s p q : piece n s p -> piece n s q -> p = q.
Proof. rewrite !part_ok. congruence. Qed.
Lemma own_fun n s p q : own_piece n s p -> own_piece n s q -> p = q.
Proof. intros [((a & b & E) & H)|(H & E)] [((a' & b' & E') & H')|(H' & E')]; [eapply piece_fun; eassumption|destruct (H' _ _ E)|destruct (H _ _ E')|congruence]. Qed.
Lemma named_well k Q v v' : named k Q v v' -> object v' -> well_typed v -> well_typed v'.
Proof.
  intros (s & ns & _ & _ & _ & H) O (P & T). split.
  - apply (plain_same v); [exact O|apply H; discriminate|exact P].
  - destruct (H "type") as (-> & _); [discriminate|]. exact T.
Qed.
Lemma named_formed k Q v v' : named k Q v v' -> object v' -> well_formed v -> well_formed v'.
Proof.
  intros N O (W & A). split; [eapply named_well; eassumption|]. destruct N as (s & ns & _ & _ & _ & H). destruct (H "attributes") as (-> & _); [discriminate|]. exact A.
Qed.

(* ---------- excluded namespaces ---------- *)
Definition ns_wanted (o : options) (v : json) : Prop := exists ns, the "root_namespace" v = JStr ns /\ wanted_namespace o ns.
Lemma namespace_ok o l : Forall (fun v => object v /\ exists ns, the "root_namespace" v = JStr ns) l ->
  exists out, namespace_filter o l = Some out /\ chosen (ns_wanted o) l out.
Proof.
  intros F. unfold namespace_filter. destruct (op_exclude_namespace o) as [e|] eqn:E.
  - induction F as [|v l (O & ns & N) F IH]; [exists []; split; [reflexivity|constructor]|]. destruct IH as (out & H & C). cbn [jselect]. rewrite H, (jfield_obj _ _ O), N. cbn [option_map]. eexists. split; [reflexivity|].
    destruct (jindex e (JStr ns)) eqn:J; cbn [negb]; [apply chosen_drop|apply chosen_keep]; try exact C.
    + intros (ns' & N' & W). rewrite N in N'. injection N' as <-. apply jindex_ok in J as [(s & Es & I)|(X & _)]; [|discriminate]. injection Es as <-. exact (W e E I).
    + exists ns. split; [exact N|]. intros e' E'. rewrite E in E'. injection E' as <-. intros I. assert (jindex e (JStr ns) = true) by (apply jindex_ok; left; eauto). congruence.
  - exists l. split; [reflexivity|]. apply chosen_all. intros v I. rewrite Forall_forall in F. destruct (F v I) as (_ & ns & N). exists ns. split; [exact N|]. intros e' E'. congruence.
Qed.
