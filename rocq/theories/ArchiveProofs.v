(* Lemmas on unpacking. *)
From Coq Require Import String Ascii Bool Arith Lia List.
From Verif Require BaseProofs.
From Verif Require Import Base Str VdirModel ArchiveModel ArchiveSpec.
Import ListNotations.
Open Scope string_scope.

Lemma names_eqb_spec : forall a b, reflect (a = b) (names_eqb a b).
Proof.
  induction a as [|x a IH]; intros [|y b]; cbn [names_eqb]; try (constructor; congruence).
  destruct (String.eqb_spec x y) as [->|N]; cbn [andb].
  - destruct (IH b) as [->|N]; constructor; congruence.
  - constructor; congruence.
Qed.

Lemma node_put_same : forall t p n, p <> [] -> node_at (put t p n) p = Some n.
Proof.
  intros t [|x p] n H; [congruence|]. unfold node_at, put. cbn [entry_at].
  destruct (names_eqb_spec (x :: p) (x :: p)); congruence.
Qed.

Lemma node_put_other : forall t p n q, q <> p -> node_at (put t p n) q = node_at t q.
Proof.
  intros t p n [|x q] H; [reflexivity|]. unfold node_at, put. cbn [entry_at].
  destruct (names_eqb_spec p (x :: q)); congruence.
Qed.

(* the directories on the way *)
Definition on_way (here rest p : list string) : Prop :=
  exists pre suf, pre <> [] /\ rest = (pre ++ suf)%list /\ p = (here ++ pre)%list.

Lemma on_way_nil : forall here p, ~ on_way here [] p.
Proof.
  intros here p (pre & suf & N & E & _). destruct pre; [congruence|discriminate].
Qed.

Lemma on_way_cons : forall here n rest p,
  on_way here (n :: rest) p <-> p = (here ++ [n])%list \/ on_way (here ++ [n])%list rest p.
Proof.
  intros here n rest p. split.
  - intros (pre & suf & N & E & ->). destruct pre as [|x pre]; [congruence|].
    cbn [app] in E. injection E as <- E. destruct pre as [|y pre].
    + left. reflexivity.
    + right. exists (y :: pre), suf. split; [discriminate|]. split; [exact E|]. rewrite <- app_assoc. reflexivity.
  - intros [-> | (pre & suf & N & -> & ->)].
    + exists [n], rest. split; [discriminate|]. split; reflexivity.
    + exists (n :: pre), suf. split; [discriminate|]. split; [reflexivity|]. rewrite <- app_assoc. reflexivity.
Qed.

Lemma on_way_dec : forall rest here p, on_way here rest p \/ ~ on_way here rest p.
Proof.
  induction rest as [|n rest IH]; intros here p; [right; apply on_way_nil|].
  rewrite on_way_cons. destruct (names_eqb_spec p (here ++ [n])%list) as [->|N]; [left; left; reflexivity|].
  destruct (IH (here ++ [n])%list p) as [W|W]; [left; right; exact W|]. right. intros [E|E]; [exact (N E)|exact (W E)].
Qed.

Lemma make_dirs_spec : forall rest t here,
  (forall p c, on_way here rest p -> node_at t p <> Some (NFile c)) ->
  exists t', make_dirs t here rest = Some t' /\
    (forall p, node_at t p <> None -> node_at t' p = node_at t p) /\
    (forall p, node_at t p = None -> on_way here rest p -> node_at t' p = Some NDir) /\
    (forall p, node_at t p = None -> ~ on_way here rest p -> node_at t' p = None).
Proof.
  induction rest as [|n rest IH]; intros t here H.
  - exists t. split; [reflexivity|]. split; [auto|]. split; [|auto].
    intros p _ W. destruct (on_way_nil _ _ W).
  - cbn [make_dirs]. set (d := (here ++ [n])%list) in *.
    assert (Hd : d <> []) by (unfold d; destruct here; discriminate).
    assert (W : forall p, on_way here (n :: rest) p <-> p = d \/ on_way d rest p) by (intros p; apply on_way_cons).
    destruct (node_at t d) as [[|c]|] eqn:E.
    + destruct (IH t d) as (t' & M & A & B & C).
      { intros p c Hp. apply H, W. right. exact Hp. }
      exists t'. split; [exact M|]. split; [exact A|]. split.
      * intros p N Hp. apply W in Hp. destruct Hp as [-> | Hp]; [congruence|]. apply B; assumption.
      * intros p N Hp. apply C; [exact N|]. intros G. apply Hp, W. right. exact G.
    + exfalso. apply (H d c); [apply W; left; reflexivity|exact E].
    + destruct (IH (put t d NDir) d) as (t' & M & A & B & C).
      { intros p c Hp. destruct (names_eqb_spec p d) as [->|N].
        - rewrite node_put_same by exact Hd. discriminate.
        - rewrite node_put_other by exact N. apply H, W. right. exact Hp. }
      exists t'. split; [exact M|]. split; [|split].
      * intros p N. assert (p <> d) by congruence.
        rewrite A; rewrite node_put_other by assumption; [reflexivity|exact N].
      * intros p N Hp. destruct (names_eqb_spec p d) as [->|Nd].
        -- rewrite A; rewrite node_put_same by exact Hd; congruence.
        -- apply W in Hp. destruct Hp as [Hp|Hp]; [congruence|].
           apply B; [rewrite node_put_other by exact Nd; exact N|exact Hp].
      * intros p N Hp. assert (p <> d) by (intros ->; apply Hp, W; left; reflexivity).
        apply C; [rewrite node_put_other by assumption; exact N|].
        intros G. apply Hp, W. right. exact G.
Qed.

(* ---------------------------------------------------------------- chosen places *)
Definition lastf (l : list item) (p : list string) (c : string) : Prop :=
  exists before after, l = (before ++ (p, KFile c) :: after)%list /\ forall c', ~ In (p, KFile c') after.

Definition dirp (l : list item) (p : list string) : Prop :=
  p = [] \/ exists q k, In (q, k) l /\ ((k = KDir /\ q = p) \/ exists x rest, q = (p ++ x :: rest)%list).

Definition fits (l : list item) : Prop :=
  forall p1 c p2 k, In (p1, KFile c) l -> In (p2, k) l ->
    p1 <> [] /\ (forall x rest, p2 <> (p1 ++ x :: rest)%list) /\ (k = KDir -> p2 <> p1).

Definition holds (l : list item) (t : tree) : Prop :=
  (forall p c, node_at t p = Some (NFile c) <-> lastf l p c) /\
  (forall p, node_at t p = Some NDir <-> dirp l p).

Lemma lastf_in : forall l p c, lastf l p c -> In (p, KFile c) l.
Proof. intros l p c (b & a & -> & _). apply in_app_iff. right. left. reflexivity. Qed.

Lemma snoc_case : forall {A} (l : list A), l = [] \/ exists l' x, l = (l' ++ [x])%list.
Proof.
  intros A l. induction l as [|x l _] using rev_ind; [left; reflexivity|]. right. exists l, x. reflexivity.
Qed.

Lemma lastf_snoc : forall l p k q d,
  lastf (l ++ [(p, k)]) q d <->
  (p = q /\ k = KFile d) \/ ((forall c, ~ (p = q /\ k = KFile c)) /\ lastf l q d).
Proof.
  intros l p k q d. split.
  - intros (b & a & E & N). destruct (snoc_case a) as [-> | (a' & x & ->)].
    + apply app_inj_tail in E. destruct E as [_ E]. left. split; congruence.
    + rewrite app_comm_cons, app_assoc in E. apply app_inj_tail in E.
      destruct E as [-> <-]. right. split.
      * intros c [-> ->]. apply (N c). apply in_app_iff. right. left. reflexivity.
      * exists b, a'. split; [reflexivity|]. intros c' G. apply (N c'). apply in_app_iff. left. exact G.
  - intros [[-> ->] | [N (b & a & -> & G)]].
    + exists l, []. split; [reflexivity|]. intros c' [].
    + exists b, (a ++ [(p, k)])%list. split; [rewrite <- app_assoc; reflexivity|].
      intros c' I0. apply in_app_iff in I0. destruct I0 as [I0|[I0|[]]]; [apply (G c' I0)|].
      injection I0 as -> ->. apply (N c'). split; reflexivity.
Qed.

Lemma dirp_snoc : forall l p k q,
  dirp (l ++ [(p, k)]) q <-> dirp l q \/ (k = KDir /\ p = q) \/ exists x rest, p = (q ++ x :: rest)%list.
Proof.
  intros l p k q. unfold dirp. split.
  - intros [-> | (p' & k' & I0 & H)]; [left; left; reflexivity|].
    apply in_app_iff in I0. destruct I0 as [I0|[I0|[]]].
    + left. right. exists p', k'. split; assumption.
    + injection I0 as <- <-. right. exact H.
  - intros [[-> | (p' & k' & I0 & H)] | H]; [left; reflexivity| |].
    + right. exists p', k'. split; [apply in_app_iff; left; exact I0|exact H].
    + right. exists p, k. split; [apply in_app_iff; right; left; reflexivity|exact H].
Qed.

Lemma on_way_removelast : forall p q, on_way [] (removelast p) q <-> q <> [] /\ exists x rest, p = (q ++ x :: rest)%list.
Proof.
  intros p q. destruct (snoc_case p) as [-> | (p' & x & ->)].
  - cbn [removelast]. split; [intros W; destruct (on_way_nil _ _ W)|].
    intros (_ & x & rest & E). destruct q; discriminate.
  - rewrite removelast_last. split.
    + intros (pre & suf & N & -> & ->). cbn [app]. split; [exact N|].
      destruct (suf ++ [x])%list as [|y r] eqn:E; [destruct suf; discriminate|].
      exists y, r. rewrite <- app_assoc, E. reflexivity.
    + intros (N & y & rest & E). destruct (snoc_case rest) as [-> | (r' & z & ->)].
      * apply app_inj_tail in E. destruct E as [-> _]. exists q, []. rewrite app_nil_r. auto.
      * rewrite app_comm_cons, app_assoc in E. apply app_inj_tail in E. destruct E as [-> _].
        exists q, (y :: r'). auto.
Qed.

Lemma on_way_full : forall p q, on_way [] p q <-> q <> [] /\ (p = q \/ exists x rest, p = (q ++ x :: rest)%list).
Proof.
  intros p q. split.
  - intros (pre & suf & N & -> & ->). cbn [app]. split; [exact N|]. destruct suf as [|x suf].
    + left. apply app_nil_r.
    + right. exists x, suf. reflexivity.
  - intros (N & [-> | (x & rest & ->)]).
    + exists q, []. rewrite app_nil_r. auto.
    + exists q, (x :: rest). auto.
Qed.

Lemma node_cases : forall t p, node_at t p = None \/ node_at t p = Some NDir \/ exists c, node_at t p = Some (NFile c).
Proof. intros t p. destruct (node_at t p) as [[|c]|]; eauto. Qed.

Definition write_at (t : tree) (p : list string) (k : kind) : outcome :=
  match make_dirs t [] (removelast p) with
  | None => Refused "parent"
  | Some t1 =>
    match k with
    | KDir => match make_dirs t1 [] p with Some t2 => Unpacked t2 | None => Refused "exists" end
    | KFile c =>
      match node_at t1 p with
      | Some NDir => Refused "is a directory"
      | _ => Unpacked (put t1 p (NFile c))
      end
    end
  end.

Lemma longer_ne : forall (q : list string) x rest, q <> (q ++ x :: rest)%list.
Proof.
  intros q x rest E. assert (L : List.length q = List.length (q ++ x :: rest)%list) by congruence.
  rewrite app_length in L. cbn in L. lia.
Qed.

Lemma not_both : forall l p c, fits l -> lastf l p c -> dirp l p -> False.
Proof.
  intros l p c F A B. apply lastf_in in A. destruct B as [-> | (q & k & I0 & H)].
  - destruct (F [] c [] (KFile c) A A) as [N _]. congruence.
  - destruct (F p c q k A I0) as (_ & N1 & N2). destruct H as [[-> ->] | (x & rest & E)].
    + apply N2; reflexivity.
    + apply (N1 x rest E).
Qed.

Lemma fits_front : forall l m, fits (l ++ m) -> fits l.
Proof.
  intros l m F p1 c p2 k A B. apply (F p1 c p2 k); apply in_app_iff; left; assumption.
Qed.


(* directories added on the way to something *)
Lemma dirs_added : forall l t rest,
  holds l t -> (forall q c, on_way [] rest q -> ~ lastf l q c) ->
  exists t1, make_dirs t [] rest = Some t1 /\
    (forall q d, node_at t1 q = Some (NFile d) <-> lastf l q d) /\
    (forall q, node_at t1 q = Some NDir <-> dirp l q \/ on_way [] rest q).
Proof.
  intros l t rest [HF HD] H.
  destruct (make_dirs_spec rest t []) as (t1 & M & A & B & C).
  { intros q c W E. apply HF in E. exact (H q c W E). }
  exists t1. split; [exact M|]. split.
  - intros q d. rewrite <- HF. destruct (node_cases t q) as [E|E].
    + split; [|congruence]. intros G. exfalso.
      destruct (on_way_dec rest [] q) as [W|W]; [rewrite (B q E W) in G|rewrite (C q E W) in G]; discriminate.
    + rewrite A; [reflexivity|]. destruct E as [E|(c & E)]; rewrite E; discriminate.
  - intros q. rewrite <- HD. destruct (node_cases t q) as [E|[E|(c & E)]].
    + destruct (on_way_dec rest [] q) as [W|W].
      * rewrite (B q E W). split; auto.
      * rewrite (C q E W), E. split; [discriminate|]. intros [G|G]; [discriminate|destruct (W G)].
    + rewrite A by (rewrite E; discriminate). rewrite E. split; auto.
    + rewrite A by (rewrite E; discriminate). rewrite E. split; [discriminate|].
      intros [G|G]; [discriminate|]. destruct (H q c G). apply HF, E.
Qed.

Lemma write_step : forall l t p k,
  holds l t -> fits (l ++ [(p, k)]) ->
  exists t', write_at t p k = Unpacked t' /\ holds (l ++ [(p, k)]) t'.
Proof.
  intros l t p k HT F. unfold write_at.
  assert (In0 : In (p, k) (l ++ [(p, k)])) by (apply in_app_iff; right; left; reflexivity).
  assert (Inl : forall q d, lastf l q d -> In (q, KFile d) (l ++ [(p, k)]))
    by (intros q d H; apply in_app_iff; left; apply lastf_in, H).
  destruct (dirs_added l t (removelast p) HT) as (t1 & M & F1 & D1).
  { intros q c W E. apply on_way_removelast in W. destruct W as (_ & x & rest & Ep).
    destruct (F q c p k (Inl _ _ E) In0) as (_ & N & _). apply (N x rest Ep). }
  rewrite M. destruct k as [|c].
  - destruct (dirs_added l t p HT) as (t2 & M2 & F2 & D2).
    { intros q c W E. apply on_way_full in W. destruct W as (_ & Ep).
      destruct (F q c p KDir (Inl _ _ E) In0) as (_ & N & N2).
      destruct Ep as [-> | (x & rest & Ep)]; [apply N2; reflexivity|apply (N x rest Ep)]. }
    destruct (make_dirs_spec p t1 []) as (t3 & M3 & A & B & C).
    { intros q c W E. apply F1 in E. apply on_way_full in W. destruct W as (_ & Ep).
      destruct (F q c p KDir (Inl _ _ E) In0) as (_ & N & N2).
      destruct Ep as [-> | (x & rest & Ep)]; [apply N2; reflexivity|apply (N x rest Ep)]. }
    rewrite M3. exists t3. split; [reflexivity|].
    assert (S : forall q, node_at t3 q = node_at t1 q \/ (node_at t1 q = None /\ node_at t3 q = Some NDir /\ on_way [] p q)).
    { intros q. destruct (node_cases t1 q) as [E|E].
      - destruct (on_way_dec p [] q) as [W|W]; [right; auto|left; rewrite E; apply C; assumption].
      - left. apply A. destruct E as [E|(z & E)]; rewrite E; discriminate. }
    split.
    + intros q d. rewrite lastf_snoc. transitivity (lastf l q d).
      * rewrite <- F1. destruct (S q) as [E|(E1 & E3 & _)]; [rewrite E; reflexivity|].
        rewrite E1, E3. split; discriminate.
      * split; [intros H; right; split; [intros c [_ G]; discriminate|exact H]|].
        intros [[_ G]|[_ G]]; [discriminate|exact G].
    + intros q. rewrite dirp_snoc. split.
      * intros E. destruct (S q) as [G|(E1 & E3 & W)].
        -- rewrite G in E. apply D1 in E. destruct E as [E|E]; [left; exact E|].
           apply on_way_removelast in E. right. right. apply E.
        -- apply on_way_full in W. destruct W as (_ & [-> | W]); right; [left; auto|right; exact W].
      * assert (K : dirp l q \/ on_way [] p q -> node_at t3 q = Some NDir).
        { intros [G|G].
          - assert (E : node_at t1 q = Some NDir) by (apply D1; left; exact G).
            destruct (S q) as [G'|(E1 & _)]; congruence.
          - destruct (node_cases t1 q) as [E|[E|(z & E)]].
            + apply B; assumption.
            + rewrite A; rewrite E; [reflexivity|discriminate].
            + exfalso. apply F1 in E. apply on_way_full in G. destruct G as (_ & Ep).
              destruct (F q z p KDir (Inl _ _ E) In0) as (_ & N & N2).
              destruct Ep as [-> | (x & rest & Ep)]; [apply N2; reflexivity|apply (N x rest Ep)]. }
        intros [G|G]; [apply K; left; exact G|].
        destruct q as [|y q]; [reflexivity|]. apply K. right. apply on_way_full. split; [discriminate|].
        destruct G as [[_ G]|G]; [left; exact G|right; exact G].
  - assert (Np : p <> []) by (destruct (F p c p (KFile c) In0 In0) as [N _]; exact N).
    assert (ND : node_at t1 p <> Some NDir).
    { intros E. apply D1 in E. destruct E as [[E|(q & k & I0 & H)]|E]; [exact (Np E)| |].
      - assert (I1 : In (q, k) (l ++ [(p, KFile c)])) by (apply in_app_iff; left; exact I0).
        destruct (F p c q k In0 I1) as (_ & N1 & N2). destruct H as [[-> ->] | (x & rest & E)].
        + apply N2; reflexivity.
        + apply (N1 x rest E).
      - apply on_way_removelast in E. destruct E as (_ & x & rest & E). exact (longer_ne _ _ _ E). }
    exists (put t1 p (NFile c)). split.
    { destruct (node_at t1 p) as [[|z]|]; congruence. }
    split.
    + intros q d. rewrite lastf_snoc. destruct (names_eqb_spec q p) as [->|N].
      * rewrite node_put_same by exact Np. split.
        -- intros E. injection E as ->. left. auto.
        -- intros [[_ E]|[E _]]; [congruence|]. destruct (E c). auto.
      * rewrite node_put_other by exact N. rewrite F1. split.
        -- intros H. right. split; [intros z [E _]; congruence|exact H].
        -- intros [[E _]|[_ H]]; [congruence|exact H].
    + intros q. rewrite dirp_snoc. destruct (names_eqb_spec q p) as [->|N].
      * rewrite node_put_same by exact Np. split; [discriminate|]. intros H. exfalso. apply ND, D1.
        destruct H as [H|[[G _]|(x & rest & E)]]; [left; exact H|discriminate|destruct (longer_ne _ _ _ E)].
      * rewrite node_put_other by exact N. rewrite D1, on_way_removelast. split.
        -- intros [H|[_ H]]; [left; exact H|right; right; exact H].
        -- intros [H|[[G _]|H]]; [left; exact H|discriminate|].
           destruct q as [|y q]; [left; left; reflexivity|]. right. split; [discriminate|exact H].
Qed.

Lemma holds_nil : holds [] [].
Proof.
  split.
  - intros p c. split.
    + destruct p; discriminate.
    + intros (b & a & E & _). destruct b; discriminate.
  - intros p. split.
    + destruct p as [|x p]; [intros _; left; reflexivity|discriminate].
    + intros [-> | (q & k & [] & _)]. reflexivity.
Qed.

Lemma holds_one : forall n bytes, holds [([n], KFile bytes)] (put [] [n] (NFile bytes)).
Proof.
  intros n bytes. destruct (write_step [] [] [n] (KFile bytes) holds_nil) as (t & E & H).
  - intros p1 c p2 k [A|[]] [B|[]]. injection A as <- <-. injection B as <- <-.
    split; [discriminate|]. split; [intros x rest E; discriminate|discriminate].
  - cbn in E. injection E as <-. exact H.
Qed.

(* ---------------------------------------------------------------- names and slashes *)
Lemma split_slash_app : forall a b, (forall x y, a <> (x ++ String "/" y)%string) ->
  split_slash (a ++ String "/" b) = a :: split_slash b.
Proof.
  induction a as [|c a IH]; intros b H; [reflexivity|].
  cbn [String.append split_slash]. destruct (Ascii.eqb_spec c "/"%char) as [->|N].
  - destruct (H "" a). reflexivity.
  - rewrite IH; [reflexivity|]. intros x y ->. apply (H (String c x) y). reflexivity.
Qed.

Lemma split_slash_one : forall a, (forall x y, a <> (x ++ String "/" y)%string) -> split_slash a = [a].
Proof.
  induction a as [|c a IH]; intros H; [reflexivity|].
  cbn [split_slash]. destruct (Ascii.eqb_spec c "/"%char) as [->|N].
  - destruct (H "" a). reflexivity.
  - rewrite IH; [reflexivity|]. intros x y ->. apply (H (String c x) y). reflexivity.
Qed.

Definition no_slash (n : string) : Prop := forall x y, n <> (x ++ String "/" y)%string.

Lemma split_slashed : forall ns tail, ns <> [] -> (forall n, In n ns -> no_slash n) -> (tail = "" \/ tail = "/") ->
  split_slash (slashed ns ++ tail) = (ns ++ if String.eqb tail "" then [] else [""])%list.
Proof.
  induction ns as [|n ns IH]; intros tail Hne H Ht; [congruence|].
  destruct ns as [|m ns].
  - cbn [slashed]. destruct Ht as [-> | ->]; cbn [String.eqb].
    + assert (Hn : no_slash n) by (apply H; left; reflexivity).
      rewrite BaseProofs.str_app_nil_r. apply split_slash_one, Hn.
    + rewrite split_slash_app by (apply H; left; reflexivity). reflexivity.
  - change (slashed (n :: m :: ns)) with (n ++ String "/" (slashed (m :: ns)))%string.
    rewrite BaseProofs.str_app_assoc. cbn [String.append].
    rewrite split_slash_app by (apply H; left; reflexivity).
    rewrite IH; [reflexivity|discriminate| |exact Ht]. intros x Hx. apply H. right. exact Hx.
Qed.

Lemma seg_named : forall n, well_named n -> seg_component n = [Normal n].
Proof.
  intros n (A & B & C & _). unfold seg_component.
  destruct (String.eqb_spec n ""); [congruence|]. destruct (String.eqb_spec n "."); [congruence|].
  destruct (String.eqb_spec n ".."); congruence.
Qed.

Lemma seg_all : forall ns, (forall n, In n ns -> well_named n) -> flat_map seg_component ns = map Normal ns.
Proof.
  induction ns as [|n ns IH]; intros H; [reflexivity|]. cbn [flat_map map].
  rewrite seg_named by (apply H; left; reflexivity). cbn [app]. f_equal. apply IH. intros x Hx. apply H. right. exact Hx.
Qed.

Definition top_component (top : string) : component := if String.eqb top "." then CurDir else Normal top.

Lemma slashed_start : forall top rest tail, top <> "" -> no_slash top ->
  starts_with "/" (slashed (top :: rest) ++ tail) = false.
Proof.
  intros top rest tail Hne Hn. destruct top as [|c top]; [congruence|].
  assert (c <> "/"%char) by (intros ->; apply (Hn "" top); reflexivity).
  destruct rest as [|m rest]; cbn [slashed String.append starts_with];
    (destruct (Ascii.eqb_spec "/"%char c) as [E|_]; [congruence|reflexivity]).
Qed.

Lemma components_slashed : forall top rest tail,
  (well_named top \/ top = ".") -> (forall n, In n rest -> well_named n) -> (tail = "" \/ tail = "/") ->
  components (slashed (top :: rest) ++ tail) = top_component top :: map Normal rest.
Proof.
  intros top rest tail Ht Hr Hl.
  assert (NT : top <> "" /\ no_slash top).
  { destruct Ht as [(A & _ & _ & D) | ->]; [split; assumption|]. split; [discriminate|].
    intros x y E. destruct x as [|c x]; [discriminate|]. injection E as _ E. destruct x; discriminate. }
  unfold components. rewrite split_slashed; [|discriminate| |exact Hl].
  2:{ intros n [<- | Hn]; [apply NT|]. destruct (Hr n Hn) as (_ & _ & _ & D). exact D. }
  cbn [app]. rewrite slashed_start by apply NT.
  assert (E : forall l : list string, flat_map seg_component (rest ++ if String.eqb tail "" then [] else [""]) = map Normal rest).
  { intros _. rewrite flat_map_app, seg_all by exact Hr.
    destruct Hl as [-> | ->]; cbn [String.eqb flat_map]; [apply app_nil_r|].
    cbn. apply app_nil_r. }
  rewrite (E []). unfold top_component. destruct (String.eqb_spec top ".") as [->|N]; [reflexivity|].
  rewrite seg_named; [reflexivity|]. destruct Ht as [Ht|Ht]; [exact Ht|congruence].
Qed.

Lemma names_of_normal : forall ns, names_of (map Normal ns) = Some ns.
Proof. induction ns as [|n ns IH]; [reflexivity|]. cbn [map names_of]. rewrite IH. reflexivity. Qed.

(* ---------------------------------------------------------------- the entries that are kept *)
Definition choose (sub : option string) (names : list string) : option (list string) :=
  match sub with
  | None => Some (tl names)
  | Some s => match tl names with
              | [] => Some []
              | c :: rest => if String.eqb c s then Some rest else None
              end
  end.

Definition chosen_one (sub : option string) (i : item) : list item :=
  match choose sub (fst i) with Some p => [(p, snd i)] | None => [] end.

Definition chosen (sub : option string) (items : list item) : list item := flat_map (chosen_one sub) items.

Lemma choose_inside : forall sub a b rest p,
  choose sub (a :: b :: rest) = Some p <-> inside sub (a :: b :: rest) p.
Proof.
  intros sub a b rest p. unfold choose, inside. cbn [tl]. destruct sub as [s|].
  - destruct (String.eqb_spec b s) as [->|N].
    + split; [intros E; injection E as <-; exists a; reflexivity|].
      intros (top & E). congruence.
    + split; [discriminate|]. intros (top & E). congruence.
  - split; [intros E; injection E as <-; exists a; reflexivity|]. intros (top & E). congruence.
Qed.

Lemma inside_choose : forall sub names p, inside sub names p -> choose sub names = Some p.
Proof.
  intros [s|] names p (top & ->); unfold choose; cbn [tl]; [|reflexivity].
  rewrite String.eqb_refl. reflexivity.
Qed.

(* an entry on top is the directory itself *)
Lemma choose_top : forall sub names p, names <> [] -> choose sub names = Some p -> inside sub names p \/ p = [].
Proof.
  intros sub [|a [|b rest]] p N E; [congruence| |].
  - right. destruct sub; cbn in E; congruence.
  - left. apply choose_inside, E.
Qed.

Lemma chosen_snoc : forall sub l i, chosen sub (l ++ [i]) = (chosen sub l ++ chosen_one sub i)%list.
Proof. intros sub l i. unfold chosen. rewrite flat_map_app. cbn [flat_map]. rewrite app_nil_r. reflexivity. Qed.

Lemma last_file_snoc : forall sub l names k p c,
  last_file sub (l ++ [(names, k)]) p c <->
  (inside sub names p /\ k = KFile c) \/ ((forall c', ~ (inside sub names p /\ k = KFile c')) /\ last_file sub l p c).
Proof.
  intros sub l names k p c. split.
  - intros (b & n & a & E & Hi & N). destruct (snoc_case a) as [-> | (a' & x & ->)].
    + apply app_inj_tail in E. destruct E as [_ E]. injection E as -> ->. left. auto.
    + rewrite app_comm_cons, app_assoc in E. apply app_inj_tail in E. destruct E as [-> <-]. right. split.
      * intros c' [G ->]. apply (N names c'); [apply in_app_iff; right; left; reflexivity|exact G].
      * exists b, n, a'. split; [reflexivity|]. split; [exact Hi|]. intros n' c' G. apply (N n' c'), in_app_iff. left. exact G.
  - intros [[Hi ->] | [N (b & n & a & -> & Hi & G)]].
    + exists l, names, []. split; [reflexivity|]. split; [exact Hi|]. intros n' c' [].
    + exists b, n, (a ++ [(names, k)])%list. split; [rewrite <- app_assoc; reflexivity|]. split; [exact Hi|].
      intros n' c' I0 Hin. apply in_app_iff in I0. destruct I0 as [I0|[I0|[]]]; [exact (G n' c' I0 Hin)|].
      injection I0 as -> ->. apply (N c'). auto.
Qed.

Lemma no_file_front : forall sub l i, no_file_on_top sub (l ++ [i]) -> no_file_on_top sub l.
Proof. intros sub l i H names c I0. apply (H names c), in_app_iff. left. exact I0. Qed.

Lemma lastf_chosen : forall sub items p c, no_file_on_top sub items ->
  lastf (chosen sub items) p c <-> last_file sub items p c.
Proof.
  intros sub items p c. induction items as [|[names k] l IH] using rev_ind; intros H.
  - split; [intros (b & a & E & _)|intros (b & n & a & E & _)]; destruct b; discriminate.
  - rewrite chosen_snoc, last_file_snoc, <- (IH (no_file_front _ _ _ H)). unfold chosen_one. cbn [fst snd].
    assert (K : forall d, k = KFile d -> forall q, choose sub names = Some q <-> inside sub names q).
    { intros d -> q. destruct (H names d) as [(a & b & rest & ->) _]; [apply in_app_iff; right; left; reflexivity|].
      apply choose_inside. }
    destruct (choose sub names) as [q|] eqn:E.
    + rewrite lastf_snoc. destruct k as [|d].
      * split; (intros [[_ G]|[_ G]]; [discriminate|]); right; (split; [intros z [_ G']; discriminate|exact G]).
      * assert (Q : forall r, inside sub names r <-> q = r).
        { intros r. rewrite <- (K d eq_refl r). split; congruence. }
        split.
        -- intros [[-> G]|[N G]]; [left; split; [apply Q; reflexivity|exact G]|].
           right. split; [|exact G]. intros z [Hi G']. apply (N z). split; [apply Q, Hi|exact G'].
        -- intros [[Hi G]|[N G]]; [left; split; [apply Q, Hi|exact G]|].
           right. split; [|exact G]. intros z [Hi G']. apply (N z). split; [apply Q, Hi|exact G'].
    + rewrite app_nil_r. split.
      * intros G. right. split; [|exact G]. intros z [Hi ->]. apply (K z eq_refl) in Hi. discriminate.
      * intros [[Hi ->]|[_ G]]; [apply (K c eq_refl) in Hi; discriminate|exact G].
Qed.

Lemma in_chosen : forall sub items p k,
  In (p, k) (chosen sub items) <-> exists names, In (names, k) items /\ choose sub names = Some p.
Proof.
  intros sub items p k. unfold chosen. rewrite in_flat_map. split.
  - intros ([names k'] & I0 & H). unfold chosen_one in H. cbn [fst snd] in H.
    destruct (choose sub names) as [q|] eqn:E; [|destruct H]. destruct H as [H|[]]. injection H as <- <-.
    exists names. auto.
  - intros (names & I0 & E). exists (names, k). split; [exact I0|]. unfold chosen_one. cbn [fst snd]. rewrite E. left. reflexivity.
Qed.

Lemma dirp_chosen : forall sub items p, (forall i, In i items -> fst i <> []) ->
  dirp (chosen sub items) p <-> a_directory sub items p.
Proof.
  intros sub items p Hn. unfold dirp, a_directory. split.
  - intros [H|(q & k & I0 & H)]; [left; exact H|]. apply in_chosen in I0. destruct I0 as (names & I0 & E).
    destruct (choose_top sub names q (Hn _ I0) E) as [Hi | ->].
    + right. exists names, k, q. auto.
    + left. destruct H as [[_ H]|(x & rest & H)]; [congruence|]. destruct p; discriminate.
  - intros [H|(names & k & q & I0 & Hi & H)]; [left; exact H|]. right. exists q, k. split; [|exact H].
    apply in_chosen. exists names. split; [exact I0|]. apply inside_choose, Hi.
Qed.

Lemma fits_chosen : forall sub items, (forall i, In i items -> fst i <> []) ->
  no_file_on_top sub items -> consistent sub items -> fits (chosen sub items).
Proof.
  intros sub items Hn Ht Hc p1 c p2 k A B. apply in_chosen in A, B.
  destruct A as (n1 & A & E1), B as (n2 & B & E2).
  destruct (Ht n1 c A) as [(a & b & r & ->) Hp]. apply choose_inside in E1.
  assert (Np : p1 <> []) by (intros ->; exact (Hp E1)).
  split; [exact Np|]. destruct (choose_top sub n2 p2 (Hn _ B) E2) as [Hi | ->].
  - exact (Hc _ c p1 n2 k p2 A E1 B Hi).
  - split; [|congruence]. intros x rest E. destruct p1; discriminate.
Qed.

Lemma blank_not : forall a c b, ~ In c [" "; "009"; "010"; "011"; "012"; "013"]%char ->
  blank (a ++ String c b)%string = false.
Proof.
  induction a as [|d a IH]; intros c b H; cbn [String.append blank].
  - replace (is_space c) with false; [reflexivity|]. symmetry.
    destruct (is_space c) eqn:E; [|reflexivity]. exfalso. apply H. revert E. clear.
    destruct c as [[] [] [] [] [] [] [] []]; vm_compute; intros E; try discriminate E; tauto.
  - rewrite IH by exact H. apply andb_false_r.
Qed.

Lemma path_choose : forall sub top rest, one_name sub -> (forall n, In n rest -> well_named n) ->
  path_to_unpack (top_component top :: map Normal rest) sub =
  match choose sub (top :: rest) with Some p => Some (map Normal p) | None => None end.
Proof.
  intros [s|] top rest Hs Hr; [|reflexivity]. destruct Hs as (_ & a & c & b & -> & Hc).
  unfold path_to_unpack, choose. cbn [tl]. rewrite blank_not by exact Hc. cbn [negb].
  destruct rest as [|n rest]; [reflexivity|]. cbn [map os_str].
  destruct (String.eqb n (a ++ String c b)); reflexivity.
Qed.

Lemma unpack_chosen : forall named reading sub es items l t,
  one_name sub ->
  Forall2 packs es items -> (forall i, In i items -> packable i) ->
  (forall e, In e es -> named (e_path e) = Some (components (e_path e))) ->
  (forall n p k, reading = Some n -> In (p, k) (chosen sub items) -> p <> [n]) ->
  holds l t -> fits (l ++ chosen sub items) ->
  exists t', unpack named reading sub t es = Unpacked t' /\ holds (l ++ chosen sub items) t'.
Proof.
  intros named reading sub es. induction es as [|e es IH]; intros items l t Hs HP Hpk Hn Hr HT HF.
  - inversion HP; subst. exists t. split; [reflexivity|]. cbn. rewrite app_nil_r. exact HT.
  - inversion HP as [|? i ? items' Hp HP']; subst. destruct i as [names k].
    destruct (Hpk (names, k) (or_introl eq_refl)) as (top & rest & En & Ht & Hrest). cbn [fst] in En. subst names.
    destruct Hp as (Ek & Ep). cbn [fst snd] in Ek, Ep.
    assert (Ec : components (e_path e) = top_component top :: map Normal rest).
    { destruct Ep as [-> | (_ & ->)].
      - rewrite <- (BaseProofs.str_app_nil_r (slashed (top :: rest))). apply components_slashed; auto.
      - apply components_slashed; auto. }
    match type of HF with fits (l ++ ?x) =>
      change x with (chosen_one sub (top :: rest, k) ++ chosen sub items')%list in HF, Hr |- * end.
    unfold chosen_one in HF, Hr |- *. cbn [fst snd] in HF, Hr |- *.
    cbn [unpack]. rewrite (Hn e (or_introl eq_refl)), Ec, path_choose by assumption.
    destruct (choose sub (top :: rest)) as [p|].
    + replace (over_itself reading (map Normal p)) with false.
      2:{ unfold over_itself. rewrite names_of_normal. destruct reading as [n|]; [|reflexivity].
          assert (p <> [n]) by (apply (Hr n p k eq_refl); left; reflexivity).
          destruct p as [|m [|m' p]]; try reflexivity. destruct (String.eqb_spec n m); congruence. }
      unfold write_entry. rewrite names_of_normal, Ek.
      destruct (write_step l t p k HT) as (t' & E & HT').
      { rewrite app_assoc in HF. apply (fits_front _ _ HF). }
      unfold write_at in E. rewrite E. rewrite app_assoc.
      apply IH; auto.
      * intros i Hi. apply Hpk. right. exact Hi.
      * intros e' He. apply Hn. right. exact He.
      * intros n q k' E' Hin. apply (Hr n q k' E'). right. exact Hin.
      * rewrite <- app_assoc. exact HF.
    + cbn [app] in *. apply IH; auto.
      * intros i Hi. apply Hpk. right. exact Hi.
      * intros e' He. apply Hn. right. exact He.
Qed.

Lemma packable_names : forall items : list item, (forall i, In i items -> packable i) -> forall i, In i items -> fst i <> [].
Proof. intros items H i Hi. destruct (H i Hi) as (top & rest & -> & _). discriminate. Qed.

(* ---------------------------------------------------------------- what any archive gives *)
Lemma make_dirs_files : forall rest t here t' p c,
  make_dirs t here rest = Some t' -> node_at t' p = Some (NFile c) -> node_at t p = Some (NFile c).
Proof.
  induction rest as [|n rest IH]; intros t here t' p c H E; cbn [make_dirs] in H.
  - injection H as <-. exact E.
  - destruct (node_at t (here ++ [n])%list) as [[|z]|] eqn:En; [|discriminate|].
    + eapply IH; eassumption.
    + pose proof (IH _ _ _ _ _ H E) as G. destruct (names_eqb_spec p (here ++ [n])%list) as [->|N].
      * rewrite node_put_same in G by (destruct here; discriminate). discriminate.
      * rewrite node_put_other in G by exact N. exact G.
Qed.

Lemma write_files : forall t cs k t' p c,
  write_entry t cs k = Unpacked t' -> node_at t' p = Some (NFile c) ->
  node_at t p = Some (NFile c) \/ (k = KFile c /\ names_of cs = Some p).
Proof.
  intros t cs k t' p c H E. unfold write_entry in H. destruct (names_of cs) as [q|] eqn:Q; [|discriminate].
  destruct (make_dirs t [] (removelast q)) as [t1|] eqn:M; [|discriminate]. destruct k as [|d].
  - destruct (make_dirs t1 [] q) as [t2|] eqn:M2; [|discriminate]. injection H as <-. left.
    eapply make_dirs_files; [exact M|]. eapply make_dirs_files; [exact M2|exact E].
  - assert (G : t' = put t1 q (NFile d)) by (destruct (node_at t1 q) as [[|z]|]; congruence).
    subst t'. destruct (names_eqb_spec p q) as [->|N].
    + destruct q as [|x q]; [discriminate|]. rewrite node_put_same in E by discriminate. right. split; congruence.
    + rewrite node_put_other in E by exact N. left. eapply make_dirs_files; eassumption.
Qed.

Lemma unpack_files : forall named reading sub es t t' p c,
  unpack named reading sub t es = Unpacked t' -> node_at t' p = Some (NFile c) ->
  node_at t p = Some (NFile c) \/
  exists e cs below, In e es /\ e_kind e = KFile c /\ named (e_path e) = Some cs /\
    path_to_unpack cs sub = Some below /\ names_of below = Some p.
Proof.
  intros named reading sub es. induction es as [|e es IH]; intros t t' p c H E; cbn [unpack] in H.
  - injection H as <-. left. exact E.
  - assert (K : forall t1, unpack named reading sub t1 es = Unpacked t' ->
       node_at t1 p = Some (NFile c) \/
       exists e0 cs below, In e0 (e :: es) /\ e_kind e0 = KFile c /\ named (e_path e0) = Some cs /\
         path_to_unpack cs sub = Some below /\ names_of below = Some p).
    { intros t1 H1. destruct (IH t1 t' p c H1 E) as [G|(e0 & cs & below & I0 & G)]; [left; exact G|].
      right. exists e0, cs, below. split; [right; exact I0|exact G]. }
    destruct (named (e_path e)) as [cs|] eqn:En; [|apply K, H].
    destruct (path_to_unpack cs sub) as [below|] eqn:Eb; [|apply K, H].
    destruct (over_itself reading below); [discriminate|].
    destruct (write_entry t below (e_kind e)) as [t1|w|] eqn:W; [|discriminate|discriminate].
    destruct (K t1 H) as [G|G]; [|right; exact G].
    destruct (write_files _ _ _ _ _ _ W G) as [G'|[Gk Gn]]; [left; exact G'|].
    right. exists e, cs, below. split; [left; reflexivity|]. auto.
Qed.

Lemma unpack_top : forall named reading sub es e x t t',
  In e es -> named (e_path e) = Some [x] -> (exists c, e_kind e = KFile c) ->
  unpack named reading sub t es <> Unpacked t'.
Proof.
  intros named reading sub es e x. induction es as [|e0 es IH]; intros t t' I0 Hn (c & Hk) H; [destruct I0|].
  cbn [unpack] in H. destruct I0 as [-> | I0].
  - rewrite Hn in H.
    assert (E : path_to_unpack [x] sub = Some []).
    { unfold path_to_unpack. cbn [tl]. destruct sub as [s|]; [destruct (negb (blank s))|]; reflexivity. }
    rewrite E in H. destruct (over_itself reading []); [discriminate|]. rewrite Hk in H. cbn in H. discriminate.
  - assert (K : forall t1, unpack named reading sub t1 es <> Unpacked t') by (intros t1; apply IH; eauto).
    destruct (named (e_path e0)) as [cs|]; [|exact (K _ H)].
    destruct (path_to_unpack cs sub) as [below|]; [|exact (K _ H)].
    destruct (over_itself reading below); [discriminate|].
    destruct (write_entry t below (e_kind e0)); [exact (K _ H)|discriminate|discriminate].
Qed.
