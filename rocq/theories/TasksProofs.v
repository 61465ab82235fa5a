(* Proofs about the maintenance tasks. *)
From Coq Require Import String Ascii Bool Arith NArith Lia List.
From Verif Require Import Base BaseProofs SemTypes Str Semver TasksModel TasksSpec.
From Verif Require DownModel DownProofs.
Import ListNotations.
Local Open Scope string_scope.

Lemma contains_occurs x s : contains x s = true <-> occurs x s.
Proof. apply contains_spec. Qed.
Lemma contains_not x s : contains x s = false <-> ~ occurs x s.
Proof. rewrite <- contains_occurs. destruct (contains x s); split; congruence. Qed.

(* ---- splitting ---- *)
Lemma app_split a b c d : a ++ b = c ++ d ->
  (exists m, a = c ++ m /\ d = m ++ b) \/ (exists m, c = a ++ m /\ b = m ++ d).
Proof.
  revert c. induction a as [|x a IH]; intros c E.
  - right. exists c. split; [reflexivity|exact E].
  - destruct c as [|y c].
    + left. exists (String x a). split; [reflexivity|]. symmetry. exact E.
    + cbn [append] in E. injection E as <- E. destruct (IH c E) as [(m & -> & ->) | (m & -> & ->)].
      * left. exists m. split; reflexivity.
      * right. exists m. split; reflexivity.
Qed.

(* two texts agree when one starts with the other *)
Definition agree (g t : string) : Prop := (exists x, g = t ++ x) \/ (exists x, t = g ++ x).
Definition apart (g t : string) : Prop :=
  (forall a b, g = a ++ b -> b <> "" -> ~ agree b t) /\ (forall a b, t = a ++ b -> b <> "" -> ~ agree g b).
Definition agreeb (g t : string) : bool := starts_with t g || starts_with g t.
Fixpoint no_suffix (f : string -> bool) (s : string) : bool :=
  match s with EmptyString => true | String _ r => negb (f s) && no_suffix f r end.
Definition apartb (g t : string) : bool := no_suffix (fun b => agreeb b t) g && no_suffix (fun b => agreeb g b) t.
Lemma agreeb_spec g t : agree g t -> agreeb g t = true.
Proof.
  intros [H | H]; apply starts_with_spec in H; unfold agreeb; rewrite H; [reflexivity|apply orb_true_r].
Qed.
Lemma no_suffix_spec f s : no_suffix f s = true -> forall a b, s = a ++ b -> b <> "" -> f b = false.
Proof.
  induction s as [|c s IH]; intros H a b E N.
  - destruct a; [cbn in E; congruence|discriminate E].
  - cbn [no_suffix] in H. apply andb_true_iff in H as [H1 H2].
    destruct a as [|x a].
    + cbn [append] in E. subst b. apply negb_true_iff. exact H1.
    + cbn [append] in E. injection E as -> E. exact (IH H2 a b E N).
Qed.
Lemma apartb_spec g t : apartb g t = true -> apart g t.
Proof.
  intros H. unfold apartb in H. apply andb_true_iff in H as [H1 H2]. split; intros a b E N A; apply agreeb_spec in A.
  - pose proof (no_suffix_spec _ _ H1 a b E N) as X. cbv beta in X. congruence.
  - pose proof (no_suffix_spec _ _ H2 a b E N) as X. cbv beta in X. congruence.
Qed.

Lemma agree_of a b c d : a ++ b = c ++ d -> agree a c.
Proof.
  intros E. destruct (app_split _ _ _ _ E) as [(m & -> & _) | (m & -> & _)]; [left|right]; exists m; reflexivity.
Qed.

Lemma occurs_around g p t rest : apart g t -> g <> "" -> occurs g (p ++ t ++ rest) -> occurs g p \/ occurs g rest.
Proof.
  intros [A1 A2] N (a & b & E). symmetry in E.
  destruct (app_split _ _ _ _ E) as [(m & -> & E2) | (m & -> & E2)].
  - destruct (app_split _ _ _ _ E2) as [(m' & -> & E3) | (m' & -> & E3)].
    + destruct m' as [|c m'].
      * right. exists "", b. cbn [append] in E3. rewrite E3. reflexivity.
      * exfalso. assert (NE : String c m' <> "") by discriminate. refine (A2 m (String c m') eq_refl NE _).
        exact (agree_of _ _ _ _ E3).
    + right. exists m', b. exact E3.
  - destruct (app_split _ _ _ _ E2) as [(m' & -> & E3) | (m' & -> & E3)].
    + destruct m' as [|c m'].
      * left. exists a, "". rewrite !str_app_nil_r. reflexivity.
      * exfalso. assert (NE : String c m' <> "") by discriminate. refine (A1 m (String c m') eq_refl NE _).
        symmetry in E3. exact (agree_of _ _ _ _ E3).
    + left. exists a, m'. reflexivity.
Qed.

(* ---- replacing ---- *)
(* a text cut at the places of a replacement *)
Fixpoint woven (sep first : string) (l : list string) : string :=
  match l with [] => first | p :: l' => first ++ sep ++ woven sep p l' end.
Lemma woven_app sep c f l : woven sep (c ++ f) l = c ++ woven sep f l.
Proof. destruct l; cbn [woven]; [reflexivity|]. rewrite str_app_assoc. reflexivity. Qed.

Lemma occurs_woven g t f l : apart g t -> g <> "" -> occurs g (woven t f l) -> exists p, In p (f :: l) /\ occurs g p.
Proof.
  intros A N. revert f. induction l as [|p l IH]; intros f O; cbn [woven] in O.
  - exists f. split; [left; reflexivity|exact O].
  - destruct (occurs_around _ _ _ _ A N O) as [H | H].
    + exists f. split; [left; reflexivity|exact H].
    + destruct (IH p H) as (q & I1 & I2). exists q. split; [right; exact I1|exact I2].
Qed.
Lemma occurs_in_woven g t f l p : In p (f :: l) -> occurs g p -> occurs g (woven t f l).
Proof.
  revert f. induction l as [|q l IH]; intros f Hp O; cbn [woven].
  - destruct Hp as [<- | []]. exact O.
  - destruct Hp as [<- | Hp].
    + destruct O as (a & b & ->). exists a, (b ++ t ++ woven t q l). rewrite !str_app_assoc. reflexivity.
    + destruct (IH q Hp O) as (a & b & E). rewrite E. exists (f ++ t ++ a), b. rewrite !str_app_assoc. reflexivity.
Qed.

Lemma occurs_cons g c s : occurs g (String c s) -> starts_with g (String c s) = true \/ occurs g s.
Proof.
  intros (a & b & E). destruct a as [|x a].
  - left. apply starts_with_spec. exists b. exact E.
  - right. cbn [append] in E. injection E as _ E. exists a, b. exact E.
Qed.

Lemma starts_shorter g p rest : starts_with g p = true -> starts_with g (p ++ rest) = true.
Proof. intros H. apply starts_with_spec in H as (t & ->). apply starts_with_spec. exists (t ++ rest). apply str_app_assoc. Qed.

Lemma replace_woven pat by_ : pat <> "" -> forall n s, String.length s <= n ->
  exists f l, s = woven pat f l /\ DownModel.replace_from 0 pat by_ s = woven by_ f l
              /\ (forall p, In p (f :: l) -> ~ occurs pat p).
Proof.
  intros NE. induction n as [|n IH]; intros s L.
  - destruct s; [|cbn in L; lia]. exists "", []. repeat split.
    intros p [<- | []] (a & b & E). destruct a; [|discriminate E]. destruct pat; [congruence|discriminate E].
  - destruct s as [|c s].
    + exists "", []. repeat split.
      intros p [<- | []] (a & b & E). destruct a; [|discriminate E]. destruct pat; [congruence|discriminate E].
    + destruct (starts_with pat (String c s)) eqn:S.
      * assert (R : DownModel.replace_from 0 pat by_ (String c s)
                    = by_ ++ DownModel.replace_from (String.length pat - 1) pat by_ s).
        { change (DownModel.replace_from 0 pat by_ (String c s)) with
            (if starts_with pat (String c s) then by_ ++ DownModel.replace_from (String.length pat - 1) pat by_ s
             else String c (DownModel.replace_from 0 pat by_ s)). rewrite S. reflexivity. }
        apply starts_with_spec in S as (t & E). destruct pat as [|d pat]; [congruence|].
        cbn [append] in E. injection E as -> ->.
        rewrite R. cbn [String.length]. replace (S (String.length pat) - 1) with (String.length pat) by lia.
        rewrite DownProofs.replace_skip.
        destruct (IH t) as (f & l & E1 & E2 & E3).
        { cbn [String.length] in L. rewrite str_length_app in L. lia. }
        exists "", (f :: l). cbn [woven append]. rewrite <- E1, E2. repeat split.
        intros p [<- | Hp]; [|exact (E3 p Hp)].
        intros (a & b & X). destruct a; discriminate X.
      * assert (R : DownModel.replace_from 0 pat by_ (String c s) = String c (DownModel.replace_from 0 pat by_ s)).
        { change (DownModel.replace_from 0 pat by_ (String c s)) with
            (if starts_with pat (String c s) then by_ ++ DownModel.replace_from (String.length pat - 1) pat by_ s
             else String c (DownModel.replace_from 0 pat by_ s)). rewrite S. reflexivity. }
        rewrite R. destruct (IH s) as (f & l & E1 & E2 & E3); [cbn [String.length] in L; lia|].
        exists (String c f), l. pose proof (woven_app pat (String c "") f l) as W1. pose proof (woven_app by_ (String c "") f l) as W2.
        cbn [append] in W1, W2. rewrite W1, W2, <- E1, E2. repeat split.
        intros p [<- | Hp]; [|exact (E3 p (or_intror Hp))].
        intros O. apply occurs_cons in O as [O | O]; [|exact (E3 f (or_introl eq_refl) O)].
        apply (starts_shorter _ _ (match l with [] => "" | q :: l' => pat ++ woven pat q l' end)) in O.
        rewrite E1 in S. destruct l as [|q l]; cbn [woven] in S; cbn [append] in O.
        -- rewrite str_app_nil_r in O. congruence.
        -- congruence.
Qed.
Lemma replace_pieces pat by_ s : pat <> "" ->
  exists f l, s = woven pat f l /\ DownModel.replace_from 0 pat by_ s = woven by_ f l
              /\ (forall p, In p (f :: l) -> ~ occurs pat p).
Proof. intros NE. exact (replace_woven pat by_ NE _ s (le_n _)). Qed.

(* a text apart from both sides is there after the replacement exactly when it was there before *)
Lemma replace_keeps g pat by_ s : pat <> "" -> g <> "" -> apart g pat -> apart g by_ ->
  (occurs g (DownModel.replace_from 0 pat by_ s) <-> occurs g s).
Proof.
  intros NE NG A1 A2. destruct (replace_pieces pat by_ s NE) as (f & l & E1 & E2 & _). rewrite E2, E1.
  split; intros O; apply occurs_woven in O; try assumption; destruct O as (p & I1 & I2);
    exact (occurs_in_woven _ _ _ _ _ I1 I2).
Qed.
Lemma replace_removes pat by_ s : pat <> "" -> apart pat by_ -> ~ occurs pat (DownModel.replace_from 0 pat by_ s).
Proof.
  intros NE A O. destruct (replace_pieces pat by_ s NE) as (f & l & _ & E2 & E3). rewrite E2 in O.
  apply occurs_woven in O as (p & I1 & I2); try assumption. exact (E3 p I1 I2).
Qed.
Lemma replace_adds pat by_ s : pat <> "" -> occurs pat s -> occurs by_ (DownModel.replace_from 0 pat by_ s).
Proof.
  intros NE O. destruct (replace_pieces pat by_ s NE) as (f & l & E1 & E2 & E3). rewrite E2.
  destruct l as [|p l].
  - exfalso. cbn [woven] in E1. subst s. exact (E3 f (or_introl eq_refl) O).
  - cbn [woven]. exists f, (woven by_ p l). reflexivity.
Qed.

(* ---- the table ---- *)
Lemma patches_remedies : patches = remedies.
Proof. reflexivity. Qed.

(* a table is clean when no text of one entry overlaps one of another, nor the two of an entry *)
Definition crossb (x y : string * string) : bool :=
  apartb (fst x) (fst y) && apartb (fst x) (snd y) && apartb (snd x) (fst y) && apartb (snd x) (snd y).
Definition selfb (x : string * string) : bool :=
  apartb (fst x) (snd x) && negb (String.eqb (fst x) "") && negb (String.eqb (snd x) "").
Fixpoint cleanb (l : list (string * string)) : bool :=
  match l with [] => true | x :: r => selfb x && forallb (fun y => crossb x y && crossb y x) r && cleanb r end.
Lemma remedies_clean : cleanb remedies = true.
Proof. vm_compute. reflexivity. Qed.

Definition fit (c : string) (x : string * string) : Prop := occurs (fst x) c \/ occurs (snd x) c.

Lemma cross_keeps x y s g : selfb x = true -> selfb y = true -> crossb y x = true -> g = fst y \/ g = snd y ->
  (occurs g (DownModel.replace_from 0 (fst x) (snd x) s) <-> occurs g s).
Proof.
  intros Sx Sy C G. unfold selfb in Sx, Sy. apply andb_true_iff in Sx as [Sx1 Sx2]. apply andb_true_iff in Sx1 as [_ Sx1].
  apply andb_true_iff in Sy as [Sy1 Sy2]. apply andb_true_iff in Sy1 as [_ Sy1].
  apply negb_true_iff in Sx1, Sy1, Sy2. apply String.eqb_neq in Sx1, Sy1, Sy2.
  unfold crossb in C. apply andb_true_iff in C as [C C4]. apply andb_true_iff in C as [C C3]. apply andb_true_iff in C as [C1 C2].
  destruct G as [-> | ->]; apply replace_keeps; auto using apartb_spec.
Qed.

Lemma clean_in l y : cleanb l = true -> In y l -> selfb y = true.
Proof.
  induction l as [|x l IH]; intros C Hi; [destruct Hi|]. cbn [cleanb] in C.
  apply andb_true_iff in C as [C C2]. apply andb_true_iff in C as [C _].
  destruct Hi as [<- | Hi]; auto.
Qed.

Lemma self_parts x : selfb x = true -> apart (fst x) (snd x) /\ fst x <> "" /\ snd x <> "".
Proof.
  unfold selfb. intros H. apply andb_true_iff in H as [H H3]. apply andb_true_iff in H as [H1 H2].
  apply negb_true_iff in H2, H3. apply String.eqb_neq in H2, H3. auto using apartb_spec.
Qed.

(* what the loop gives for a clean table *)
Lemma apply_all_spec l : cleanb l = true -> forall c,
  (Forall (fit c) l -> exists r, apply_all l c = Ok r)
  /\ (forall x, In x l -> ~ fit c x -> exists e, apply_all l c = Err e)
  /\ (forall r, apply_all l c = Ok r ->
        (forall x, In x l -> ~ occurs (fst x) r /\ occurs (snd x) r)
        /\ (forall g, g <> "" -> (forall x, In x l -> apart g (fst x) /\ apart g (snd x)) -> (occurs g r <-> occurs g c))).
Proof.
  induction l as [|x l IH]; intros C c.
  - cbn [apply_all]. split; [|split].
    + intros _. exists c. reflexivity.
    + intros x [].
    + intros r E. injection E as <-. split; [intros x []|]. intros g _ _. reflexivity.
  - cbn [cleanb] in C. apply andb_true_iff in C as [C C2]. apply andb_true_iff in C as [Sx Cx].
    rewrite forallb_forall in Cx. destruct (self_parts x Sx) as (Ax & N1 & N2).
    specialize (IH C2).
    assert (K : forall y, In y l -> forall s, (fit (DownModel.replace_from 0 (fst x) (snd x) s) y <-> fit s y)).
    { intros y Hy s. specialize (Cx y Hy). apply andb_true_iff in Cx as [_ Cyx]. pose proof (clean_in l y C2 Hy) as Sy.
      unfold fit. rewrite (cross_keeps x y s (fst y) Sx Sy Cyx (or_introl eq_refl)),
                          (cross_keeps x y s (snd y) Sx Sy Cyx (or_intror eq_refl)). tauto. }
    destruct x as [from to]. cbn [fst snd] in *. cbn [apply_all].
    destruct (contains from c) eqn:F; [apply contains_occurs in F|apply contains_not in F].
    + set (c' := DownModel.replace_from 0 from to c) in *. destruct (IH c') as (I1 & I2 & I3). split; [|split].
      * intros Fo. apply I1. apply Forall_forall. intros y Hy. apply K; [exact Hy|].
        inversion Fo; subst. rewrite Forall_forall in H2. auto.
      * intros y [<- | Hy] NF; [exfalso; apply NF; left; exact F|]. apply (I2 y Hy). intros X. apply NF. apply (K y Hy c). exact X.
      * intros r E. destruct (I3 r E) as (J1 & J2). split.
        -- intros y [<- | Hy]; [|exact (J1 y Hy)]. cbn [fst snd].
           assert (AP : forall g, (g = from \/ g = to) -> forall y, In y l -> apart g (fst y) /\ apart g (snd y)).
           { intros g Gg y Hy. specialize (Cx y Hy). apply andb_true_iff in Cx as [Cxy _]. unfold crossb in Cxy. cbn [fst snd] in Cxy.
             apply andb_true_iff in Cxy as [Cz C4]. apply andb_true_iff in Cz as [Cz C3]. apply andb_true_iff in Cz as [C1 C0].
             destruct Gg as [-> | ->]; split; apply apartb_spec; assumption. }
           rewrite (J2 from N1 (AP from (or_introl eq_refl))), (J2 to N2 (AP to (or_intror eq_refl))).
           split; [exact (replace_removes from to c N1 Ax)|exact (replace_adds from to c N1 F)].
        -- intros g Ng Ag. rewrite (J2 g Ng (fun y Hy => Ag y (or_intror Hy))).
           destruct (Ag (from, to) (or_introl eq_refl)) as [A1 A2]. exact (replace_keeps g from to c N1 Ng A1 A2).
    + destruct (contains to c) eqn:T; [apply contains_occurs in T|apply contains_not in T].
      * destruct (IH c) as (I1 & I2 & I3). split; [|split].
        -- intros Fo. apply I1. inversion Fo; assumption.
        -- intros y [<- | Hy] NF; [exfalso; apply NF; right; exact T|exact (I2 y Hy NF)].
        -- intros r E. destruct (I3 r E) as (J1 & J2). split.
           ++ intros y [<- | Hy]; [|exact (J1 y Hy)]. cbn [fst snd].
              assert (AP : forall g, (g = from \/ g = to) -> forall y, In y l -> apart g (fst y) /\ apart g (snd y)).
              { intros g Gg y Hy. specialize (Cx y Hy). apply andb_true_iff in Cx as [Cxy _]. unfold crossb in Cxy. cbn [fst snd] in Cxy.
                apply andb_true_iff in Cxy as [Cz C4]. apply andb_true_iff in Cz as [Cz C3]. apply andb_true_iff in Cz as [C1 C0].
                destruct Gg as [-> | ->]; split; apply apartb_spec; assumption. }
              rewrite (J2 from N1 (AP from (or_introl eq_refl))), (J2 to N2 (AP to (or_intror eq_refl))). tauto.
           ++ intros g Ng Ag. exact (J2 g Ng (fun y Hy => Ag y (or_intror Hy))).
      * split; [|split].
        -- intros Fo. exfalso. inversion Fo; subst. destruct H1; auto.
        -- intros y _ _. eexists. reflexivity.
        -- intros r E. discriminate E.
Qed.

Lemma apply_all_fixed l r : (forall x, In x l -> ~ occurs (fst x) r /\ occurs (snd x) r) -> apply_all l r = Ok r.
Proof.
  induction l as [|[from to] l IH]; intros H; [reflexivity|]. cbn [apply_all].
  destruct (H (from, to) (or_introl eq_refl)) as [H1 H2]. cbn [fst snd] in *.
  apply contains_not in H1. apply contains_occurs in H2. rewrite H1, H2. apply IH. intros x Hx. apply H. right. exact Hx.
Qed.

Lemma edited_trans a b c : edited a b -> edited b c -> edited a c.
Proof. intros H. revert c. induction H; intros d K; [exact K|]. eapply ed_step; [eassumption|]. auto. Qed.
Lemma edited_around p q a b : edited a b -> edited (p ++ a ++ q) (p ++ b ++ q).
Proof.
  intros H. induction H as [c | x from to y r Hin _ IH]; [apply ed_done|].
  replace (p ++ (x ++ from ++ y) ++ q) with ((p ++ x) ++ from ++ (y ++ q)) by (rewrite !str_app_assoc; reflexivity).
  apply (ed_step _ _ to); [exact Hin|].
  replace ((p ++ x) ++ to ++ (y ++ q)) with (p ++ (x ++ to ++ y) ++ q) by (rewrite !str_app_assoc; reflexivity). exact IH.
Qed.
Lemma edited_woven from to f l : In (from, to) remedies -> edited (woven from f l) (woven to f l).
Proof.
  intros Hin. revert f. induction l as [|p l IH]; intros f; cbn [woven]; [apply ed_done|].
  apply (ed_step _ _ to); [exact Hin|].
  pose proof (edited_around (f ++ to) "" _ _ (IH p)) as X. rewrite !str_app_nil_r, !str_app_assoc in X. exact X.
Qed.
Lemma apply_all_edited l : incl l remedies -> cleanb l = true -> forall c r, apply_all l c = Ok r -> edited c r.
Proof.
  induction l as [|[from to] l IH]; intros Hl C c r E.
  - cbn [apply_all] in E. injection E as <-. apply ed_done.
  - assert (Hl' : incl l remedies) by (intros x Hx; apply Hl; right; exact Hx).
    cbn [cleanb] in C. apply andb_true_iff in C as [C C2]. apply andb_true_iff in C as [Sx _].
    destruct (self_parts _ Sx) as (_ & N1 & _). cbn [fst] in N1.
    cbn [apply_all] in E. destruct (contains from c).
    + apply (edited_trans _ (DownModel.replace_from 0 from to c)); [|exact (IH Hl' C2 _ _ E)].
      destruct (replace_pieces from to c N1) as (f & l' & E1 & E2 & _). rewrite E2, E1. apply edited_woven. apply Hl. left. reflexivity.
    + destruct (contains to c); [exact (IH Hl' C2 _ _ E)|discriminate E].
Qed.

(* ---- validate ---- *)
Lemma find_key_spec {A} k (t : list (string * A)) v :
  find_key k t = Some v <-> exists a b, t = List.app a ((k, v) :: b) /\ ~ In k (map fst a).
Proof.
  induction t as [|[k' w] t IH]; cbn [find_key].
  - split; [discriminate|]. intros (a & b & E & _). destruct a; discriminate E.
  - destruct (String.eqb_spec k k') as [<- | NE].
    + split.
      * intros E. injection E as <-. exists [], t. split; [reflexivity|intros []].
      * intros (a & b & E & N). destruct a as [|[k2 v2] a]; cbn [List.app] in E; injection E; intros.
        -- congruence.
        -- exfalso. apply N. left. cbn. congruence.
    + rewrite IH. split.
      * intros (a & b & -> & N). exists ((k', w) :: a), b. split; [reflexivity|]. intros [X | X]; [cbn in X; congruence|auto].
      * intros (a & b & E & N). destruct a as [|[k2 v2] a]; cbn [List.app] in E; injection E as E1 E2.
        -- congruence.
        -- exists a, b. subst. split; [reflexivity|]. intros X. apply N. right. exact X.
Qed.
Lemma get_reaches k v path w : reaches v (k :: path) w <-> exists v', get k v = Some v' /\ reaches v' path w.
Proof.
  split.
  - intros H. inversion H; subst. exists v0. split; [|assumption]. cbn [get]. apply find_key_spec. assumption.
  - intros (v' & G & R). destruct v as [b|t|]; try discriminate G. cbn [get] in G. apply (re_down t k v'); [|exact R].
    apply find_key_spec. exact G.
Qed.
Lemma reaches_nil v w : reaches v [] w <-> v = w.
Proof. split; [intros H; inversion H; reflexivity|intros ->; constructor]. Qed.

Lemma walk_spec at_ full path v : (exists f w, walk at_ full path v = Ok (f, w) /\ reaches v path w)
  \/ ((exists e, walk at_ full path v = Err e) /\ forall w, ~ reaches v path w).
Proof.
  revert full v. induction path as [|k path IH]; intros full v; cbn [walk].
  - left. exists full, v. split; [reflexivity|constructor].
  - destruct (get k v) as [v'|] eqn:G.
    + destruct (IH ((if String.eqb full "" then full else full ++ ".") ++ k) v') as [(f & w & E & R) | ((e & E) & N)].
      * left. exists f, w. split; [exact E|]. apply get_reaches. eauto.
      * right. split; [eauto|]. intros w R. apply get_reaches in R as (v2 & G2 & R). rewrite G in G2. injection G2 as <-. exact (N w R).
    + right. split; [eauto|]. intros w R. apply get_reaches in R as (v2 & G2 & R). congruence.
Qed.
Lemma reaches_fun v path w w' : reaches v path w -> reaches v path w' -> w = w'.
Proof.
  revert v. induction path as [|k path IH]; intros v H1 H2.
  - apply reaches_nil in H1, H2. congruence.
  - apply get_reaches in H1 as (v1 & G1 & R1). apply get_reaches in H2 as (v2 & G2 & R2).
    rewrite G1 in G2. injection G2 as <-. exact (IH v1 R1 R2).
Qed.
Lemma check_true at_ path v : check_path_is_true at_ path v = Ok tt <-> is_true_at v path.
Proof.
  unfold check_path_is_true, is_true_at. destruct (walk_spec at_ "" path v) as [(f & w & E & R) | ((e & E) & N)]; rewrite E; cbn [rbind snd fst].
  - destruct w as [[]|t|]; split; intros H; try congruence; try exact R;
      exfalso; pose proof (reaches_fun _ _ _ _ R H) as X; discriminate X.
  - split; [discriminate|]. intros H. exfalso. exact (N _ H).
Qed.
Lemma check_true_cases at_ path v : check_path_is_true at_ path v = Ok tt \/ exists e, check_path_is_true at_ path v = Err e.
Proof. destruct (check_path_is_true at_ path v) as [[]|e]; eauto. Qed.

Lemma check_package_spec at_ v : check_package at_ v = Ok tt <->
  ((exists w, reaches v ["package"; "name"] w) /\ (exists w, reaches v ["package"; "version"] w)
   /\ Forall (fun k => is_true_at v ["package"; k; "workspace"])
             ["authors"; "repository"; "license"; "publish"; "edition"; "rust-version"]).
Proof.
  unfold check_package. destruct (get "package" v) as [p|] eqn:G.
  2:{ split; [discriminate|]. intros ((w & R) & _). apply get_reaches in R as (p & G' & _). congruence. }
  assert (P : forall path w, reaches v ("package" :: path) w <-> reaches p path w).
  { intros path w. rewrite get_reaches. split; [intros (p' & G' & R); congruence|eauto]. }
  assert (S : Forall (fun k => is_true_at v ["package"; k; "workspace"])
             ["authors"; "repository"; "license"; "publish"; "edition"; "rust-version"] <->
              Forall (fun k => is_true_at p [k; "workspace"])
             ["authors"; "repository"; "license"; "publish"; "edition"; "rust-version"]).
  { rewrite !Forall_forall. unfold is_true_at. split; intros H k Hk; specialize (H k Hk); apply P; exact H. }
  rewrite S. setoid_rewrite P.
  assert (one : forall k, (exists w, reaches p [k] w) <-> exists w, get k p = Some w).
  { intros k. split.
    - intros (w & R). apply get_reaches in R as (w' & E & _). eauto.
    - intros (w & E). exists w. apply get_reaches. exists w. split; [exact E|constructor]. }
  rewrite !one.
  destruct (get "name" p) as [n|]; [|split; [discriminate|intros ((w & X) & _); discriminate X]].
  destruct (get "version" p) as [n'|]; [|split; [discriminate|intros (_ & (w & X) & _); discriminate X]].
  repeat setoid_rewrite Forall_cons_iff. rewrite <- !(check_true at_).
  split.
  - intros H. split; [eauto|]. split; [eauto|].
    repeat match type of H with context [rbind (check_path_is_true ?a ?q ?x) _] =>
      destruct (check_path_is_true a q x) as [[]|]; cbn [rbind] in H; [|discriminate H] end.
    rewrite H. repeat split; constructor.
  - intros (_ & _ & H1 & H2 & H3 & H4 & H5 & H6 & _). rewrite H1, H2, H3, H4, H5. cbn [rbind]. exact H6.
Qed.
Lemma check_lints_spec at_ v : check_lints_workspace at_ v = Ok tt <-> is_true_at v ["lints"; "workspace"].
Proof.
  unfold check_lints_workspace, is_true_at. rewrite get_reaches. destruct (get "lints" v) as [l|].
  2:{ split; [discriminate|intros (x & X & _); discriminate X]. }
  split.
  - intros H. exists l. split; [reflexivity|]. apply get_reaches. destruct (get "workspace" l) as [w|]; [|discriminate H].
    exists w. split; [reflexivity|]. apply reaches_nil. destruct w as [[]|t|]; congruence.
  - intros (x & E & R). injection E as <-. apply get_reaches in R as (w & E & R). apply reaches_nil in R. subst w. rewrite E. reflexivity.
Qed.
Lemma has_spec e f : has e f = true <-> In f (e_has e).
Proof.
  unfold has. rewrite existsb_exists. split.
  - intros (x & Hx & E). apply String.eqb_eq in E. congruence.
  - intros H. exists f. split; [exact H|apply String.eqb_refl].
Qed.
Lemma errs_nil r : errs_of r = [] <-> r = Ok tt.
Proof. destruct r as [[]|]; cbn; split; congruence. Qed.
Lemma presence_nil e f : check_presence_of e f = [] <-> In f (e_has e).
Proof. unfold check_presence_of. rewrite <- has_spec. destruct (has e f); split; congruence. Qed.

Lemma check_entry_nil e : check_entry e = [] <->
  (is_crate e -> (exists r, e_name e = "weaver_" ++ r) /\ In "README.md" (e_has e)
                 /\ In "allowed-external-types.toml" (e_has e) /\ In "Cargo.toml" (e_has e)
                 /\ (forall v, e_toml e = Some v -> sound_manifest v)).
Proof.
  unfold check_entry, is_crate. destruct (e_dir e); cbn [negb].
  2:{ split; [intros _ [X _]; discriminate X|reflexivity]. }
  destruct (String.eqb_spec (e_name e) "xtask") as [E | NE].
  { split; [intros _ [_ X]; congruence|reflexivity]. }
  assert (T : forall v, (check_package (manifest_path e) v = Ok tt /\ check_lints_workspace (manifest_path e) v = Ok tt) <-> sound_manifest v).
  { intros v. rewrite check_package_spec, check_lints_spec. split.
    - intros ((A & B & C) & D). constructor; assumption.
    - intros [A B C D]. auto. }
  split.
  - intros H _. apply app_eq_nil in H as [H1 H]. apply app_eq_nil in H as [H2 H]. apply app_eq_nil in H as [H3 H].
    apply app_eq_nil in H as [H4 H5]. rewrite presence_nil in H2, H3.
    split; [|split; [exact H2|split; [exact H3|split]]].
    + apply starts_with_spec. destruct (starts_with "weaver_" (e_name e)); congruence.
    + apply has_spec. destruct (has e "Cargo.toml"); congruence.
    + intros v E. rewrite E in H5. apply app_eq_nil in H5 as [H5 H6]. apply T. split; apply errs_nil; assumption.
  - intros H. destruct (H (conj eq_refl NE)) as (H1 & H2 & H3 & H4 & H5).
    apply starts_with_spec in H1. rewrite H1. apply presence_nil in H2, H3. rewrite H2, H3. apply has_spec in H4. rewrite H4.
    cbn [List.app]. destruct (e_toml e) as [v|]; [|reflexivity]. destruct (proj2 (T v) (H5 v eq_refl)) as [-> ->]. reflexivity.
Qed.

Lemma check_entries_spec l errs : check_entries l = Some errs ->
  exists es, l = map Some es /\ errs = flat_map check_entry es.
Proof.
  revert errs. induction l as [|[e|] l IH]; intros errs E; cbn [check_entries] in E.
  - injection E as <-. exists []. split; reflexivity.
  - destruct (check_entries l) as [rest|]; [|discriminate E]. injection E as <-. destruct (IH _ eq_refl) as (es & -> & ->).
    exists (e :: es). split; reflexivity.
  - discriminate E.
Qed.
Lemma check_entries_some es : check_entries (map Some es) = Some (flat_map check_entry es).
Proof. induction es as [|e es IH]; cbn [map check_entries flat_map]; [reflexivity|]. rewrite IH. reflexivity. Qed.

(* ---- history ---- *)
Lemma is_alpha_spec c : is_alpha c = true <-> letter c.
Proof.
  unfold is_alpha, letter. rewrite orb_true_iff, !andb_true_iff, !Nat.leb_le. tauto.
Qed.
Lemma trim_bare s : bare s (trim_alpha s).
Proof.
  induction s as [|c s IH]; cbn [trim_alpha].
  - exists "". repeat split. intros c [].
  - destruct (is_alpha c) eqn:A.
    + destruct IH as (p & E & L & N). exists (String c p). split; [cbn [append]; congruence|]. split; [|exact N].
      intros d [<- | Hd]; [apply is_alpha_spec; exact A|auto].
    + exists "". split; [reflexivity|]. split; [intros d []|]. intros X. apply is_alpha_spec in X. congruence.
Qed.
Lemma bare_trim s t : bare s t -> t = trim_alpha s.
Proof.
  intros (p & -> & L & N). induction p as [|c p IH].
  - cbn [append]. destruct t as [|c t]; [reflexivity|]. cbn [trim_alpha].
    destruct (is_alpha c) eqn:A; [|reflexivity]. apply is_alpha_spec in A. contradiction.
  - cbn [append trim_alpha]. rewrite (proj2 (is_alpha_spec c)) by (apply L; left; reflexivity).
    apply IH. intros d Hd. apply L. right. exact Hd.
Qed.

Lemma check_versions_pass check failed vs : fst (check_versions check failed vs) = true <->
  failed = false /\ (forall v, In v vs -> check v = CSuccess).
Proof.
  revert failed. induction vs as [|v vs IH]; intros failed; cbn [check_versions].
  - cbn [fst]. rewrite negb_true_iff. split; [intros ->; split; [reflexivity|intros v []]|intros [H _]; exact H].
  - destruct (check v) eqn:C; cbn [fst].
    + rewrite IH. split; intros [A B]; (split; [exact A|]).
      * intros x [<- | Hx]; auto.
      * intros x Hx. apply B. right. exact Hx.
    + rewrite IH. split; [intros [A _]; discriminate A|]. intros [_ B]. specialize (B v (or_introl eq_refl)). congruence.
    + split; [discriminate|]. intros [_ B]. specialize (B v (or_introl eq_refl)). congruence.
    + split; [discriminate|]. intros [_ B]. specialize (B v (or_introl eq_refl)). congruence.
Qed.
Lemma check_versions_all check failed vs : (forall v, In v vs -> check v = CSuccess \/ check v = CFailure) ->
  snd (check_versions check failed vs) = vs.
Proof.
  revert failed. induction vs as [|v vs IH]; intros failed H; cbn [check_versions]; [reflexivity|].
  assert (R : forall x, In x vs -> check x = CSuccess \/ check x = CFailure) by (intros x Hx; apply H; right; exact Hx).
  destruct (H v (or_introl eq_refl)) as [E | E]; rewrite E; cbn [snd]; rewrite IH; auto.
Qed.
Lemma get_versions_in parse tags start tag : In tag (get_versions parse tags start) <->
  In (Some tag) tags /\ exists s v, bare tag s /\ parse s = Some v /\ ver_cmp start v <> Gt.
Proof.
  unfold get_versions. rewrite in_flat_map. split.
  - intros ([t|] & Hi & H); [|destruct H]. destruct (keep parse start t) eqn:K; [|destruct H]. destruct H as [<- | []].
    split; [exact Hi|]. unfold keep in K. destruct (parse (trim_alpha t)) as [v|] eqn:P; [|discriminate K].
    exists (trim_alpha t), v. split; [apply trim_bare|]. split; [exact P|]. unfold ver_leb in K. destruct (ver_cmp start v); congruence.
  - intros (Hi & s & v & B & P & V). exists (Some tag). split; [exact Hi|]. unfold keep. rewrite <- (bare_trim _ _ B), P.
    unfold ver_leb. destruct (ver_cmp start v); [left; reflexivity|left; reflexivity|congruence].
Qed.
