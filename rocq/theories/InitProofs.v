(* Lemmas on initialising templates: extraction as a list of operations. *)
From Coq Require Import String Ascii Bool Arith Lia List.
From Verif Require Import Base SemTypes ArchiveModel InitModel InitSpec.
From Verif Require VdirModel.
From Verif Require ForgeModel ForgeSpec ArchiveProofs PropForge ArchiveSpec.
Import ForgeModel.
Import ListNotations.
Open Scope list_scope.

Inductive op := ODir (p : list string) | OFile (p : list string) (c : string).

Fixpoint ops (base dir : list string) (n : enode) : list op :=
  match n with
  | EFile name c => [OFile (base ++ dir ++ [name]) c]
  | EDir name es => ODir (base ++ dir ++ [name]) :: flat_map (ops base (dir ++ [name])) es
  end.

Definition step (o : op) (t : ArchiveModel.tree) : ArchiveModel.tree * bool :=
  match o with
  | ODir p => match make_dirs t [] p with Some t' => (t', true) | None => (t, false) end
  | OFile p c => match write_file t p c with Some t' => (t', true) | None => (t, false) end
  end.

Fixpoint run (l : list op) (t : ArchiveModel.tree) : ArchiveModel.tree * bool :=
  match l with
  | [] => (t, true)
  | o :: r => match step o t with (t', true) => run r t' | (t', false) => (t', false) end
  end.

Lemma run_app : forall a b t, run (a ++ b) t = match run a t with (t', true) => run b t' | (t', false) => (t', false) end.
Proof.
  induction a as [|o a IH]; intros b t; [reflexivity|]. cbn [run app]. destruct (step o t) as [t' []]; [apply IH|reflexivity].
Qed.

Lemma extract_ops : forall n base dir t, extract_entry base dir n t = run (ops base dir n) t.
Proof.
  induction n as [name c|name es IH] using PropForge.enode_ind2; intros base dir t.
  - cbn. destruct (write_file t _ c); reflexivity.
  - cbn [extract_entry ops run step]. destruct (make_dirs t [] (base ++ dir ++ [name])) as [t1|]; [|reflexivity].
    revert t1. induction IH as [|x l Hx IH IHl]; intros t1; [reflexivity|]. cbn [flat_map]. rewrite run_app, Hx.
    destruct (run (ops base (dir ++ [name]) x) t1) as [t' []]; [apply IHl|reflexivity].
Qed.

Definition taken (target : string) (n : enode) : bool :=
  match n with EDir name _ => path_starts_with name target | EFile _ _ => true end.

Definition all_ops (base : list string) (target : string) (entries : list enode) : list op :=
  flat_map (ops base []) (filter (taken target) entries).

Lemma extract_all : forall entries base target t, extract base target entries t = run (all_ops base target entries) t.
Proof.
  unfold all_ops. induction entries as [|n r IH]; intros base target t; [reflexivity|]. cbn [extract filter].
  change (match n with EDir name _ => path_starts_with name target | EFile _ _ => true end) with (taken target n).
  destruct (taken target n); [|apply IH]. cbn [flat_map]. rewrite run_app, extract_ops.
  destruct (run (ops base [] n) t) as [t' []]; [apply IH|reflexivity].
Qed.

(* ------------------------------------------------------------ steps *)
Definition on_the_way (q d : list string) : Prop := q <> [] /\ exists rest, d = q ++ rest.

Lemma on_the_way_on_way : forall q d, on_the_way q d <-> ArchiveProofs.on_way [] d q.
Proof.
  intros q d. unfold on_the_way, ArchiveProofs.on_way. split.
  - intros (N & rest & ->). exists q, rest. auto.
  - intros (pre & suf & N & -> & ->). cbn [app]. split; [exact N|]. exists suf. reflexivity.
Qed.

Lemma make_dirs_blocked : forall rest t here q c,
  ArchiveProofs.on_way here rest q -> node_at t q = Some (NFile c) -> make_dirs t here rest = None.
Proof.
  induction rest as [|n rest IH]; intros t here q c W H; [destruct (ArchiveProofs.on_way_nil _ _ W)|].
  apply ArchiveProofs.on_way_cons in W. cbn [make_dirs]. destruct W as [-> | W]; [rewrite H; reflexivity|].
  destruct (node_at t (here ++ [n])) as [[|c']|] eqn:E; [apply (IH _ _ q c W H)|reflexivity|].
  apply (IH _ _ q c W). rewrite ArchiveProofs.node_put_other; [exact H|]. congruence.
Qed.

Lemma make_dirs_cases : forall t d,
  (exists t', make_dirs t [] d = Some t' /\
     (forall q, on_the_way q d -> node_at t' q = Some NDir) /\
     (forall q, node_at t q <> None -> node_at t' q = node_at t q) /\
     (forall q, node_at t q = None -> ~ on_the_way q d -> node_at t' q = None)) \/
  (make_dirs t [] d = None /\ exists q c, on_the_way q d /\ node_at t q = Some (NFile c)).
Proof.
  intros t d.
  assert (D : (exists q c, on_the_way q d /\ node_at t q = Some (NFile c)) \/
              (forall q c, on_the_way q d -> node_at t q <> Some (NFile c))).
  { assert (G : forall k, (exists q c, on_the_way q (firstn k d) /\ node_at t q = Some (NFile c)) \/
                     (forall q c, on_the_way q (firstn k d) -> node_at t q <> Some (NFile c))).
    { induction k as [|k [(q & c & (N & rest & E) & H)|IH]].
      - right. intros q c (N & rest & E). cbn in E. destruct q; [congruence|discriminate].
      - left. exists q, c. split; [|exact H]. split; [exact N|].
        exists (rest ++ firstn 1 (skipn k d)). rewrite app_assoc, <- E.
        clear. revert d. induction k as [|k IH]; intros [|x d]; cbn; try reflexivity. f_equal. apply IH.
      - assert (Sp : forall q, on_the_way q (firstn (S k) d) -> on_the_way q (firstn k d) \/ q = firstn (S k) d).
        { intros q (N & rest & E). destruct rest as [|x rest].
          - right. rewrite E, app_nil_r. reflexivity.
          - left. split; [exact N|].
            assert (L : length q <= k).
            { pose proof (firstn_le_length (S k) d) as L. rewrite E, app_length in L. cbn in L. lia. }
            exists (skipn (length q) (firstn k d)).
            transitivity (firstn (length q) (firstn k d) ++ skipn (length q) (firstn k d)); [symmetry; apply firstn_skipn|].
            f_equal. rewrite firstn_firstn, Nat.min_l by exact L.
            transitivity (firstn (length q) (firstn (S k) d)).
            + rewrite firstn_firstn, Nat.min_l by lia. reflexivity.
            + rewrite E, firstn_app, Nat.sub_diag, firstn_all. cbn. apply app_nil_r. }
        destruct (firstn (S k) d) as [|y l] eqn:F.
        + right. intros q c (N & rest & E). destruct q; [congruence|discriminate].
        + destruct (node_at t (y :: l)) as [[|c]|] eqn:H.
          * right. intros q c W. destruct (Sp q W) as [W'| ->]; [apply IH; exact W'|congruence].
          * left. exists (y :: l), c. split; [|exact H]. split; [discriminate|]. exists []. symmetry. apply app_nil_r.
          * right. intros q c W. destruct (Sp q W) as [W'| ->]; [apply IH; exact W'|congruence]. }
    specialize (G (length d)). rewrite firstn_all in G. exact G. }
  destruct D as [(q & c & W & H)|D].
  - right. split; [|exists q, c; auto]. apply (make_dirs_blocked _ _ _ q c); [apply on_the_way_on_way; exact W|exact H].
  - left. destruct (ArchiveProofs.make_dirs_spec d t []) as (t' & M & A & B & C).
    { intros p c W. apply D, on_the_way_on_way. exact W. }
    exists t'. split; [exact M|]. split; [|split; [exact A|]].
    + intros q W. destruct (node_at t q) as [[|c]|] eqn:E.
      * rewrite A; congruence.
      * destruct (D q c W E).
      * apply B; [exact E|]. apply on_the_way_on_way. exact W.
    + intros q N W. apply C; [exact N|]. rewrite <- on_the_way_on_way. exact W.
Qed.

(* a file stays a file and a directory a directory *)
Lemma step_kinds : forall o t t' b, step o t = (t', b) ->
  (forall q, node_at t q = Some NDir -> node_at t' q = Some NDir) /\
  (forall q c, node_at t q = Some (NFile c) -> exists c', node_at t' q = Some (NFile c')).
Proof.
  intros [d|p c0] t t' b H; cbn [step] in H.
  - destruct (make_dirs_cases t d) as [(t1 & E & A & B & C)|(E & _)]; rewrite E in H; injection H as <- <-.
    + split; intros q; [intros Hq|intros c Hq; exists c]; rewrite B; congruence.
    + split; intros q; [auto|intros c Hq; eauto].
  - unfold write_file in H. destruct (node_at t (removelast p)) as [[|]|]; try (injection H as <- <-; split; [auto|eauto]).
    destruct (node_at t p) as [[|c1]|] eqn:E; injection H as <- <-.
    + split; [auto|eauto].
    + split; intros q.
      * intros Hq. rewrite ArchiveProofs.node_put_other; [exact Hq|]. congruence.
      * intros c Hq. destruct (ArchiveProofs.names_eqb_spec q p) as [->|N].
        -- exists c0. apply ArchiveProofs.node_put_same. intros ->. discriminate E.
        -- exists c. rewrite ArchiveProofs.node_put_other by exact N. exact Hq.
    + split; intros q.
      * intros Hq. rewrite ArchiveProofs.node_put_other; [exact Hq|]. congruence.
      * intros c Hq. exists c. rewrite ArchiveProofs.node_put_other; [exact Hq|]. congruence.
Qed.

Lemma run_kinds : forall l t t' b, run l t = (t', b) ->
  (forall q, node_at t q = Some NDir -> node_at t' q = Some NDir) /\
  (forall q c, node_at t q = Some (NFile c) -> exists c', node_at t' q = Some (NFile c')).
Proof.
  induction l as [|o l IH]; intros t t' b H; cbn [run] in H.
  - injection H as <- <-. split; [auto|eauto].
  - destruct (step o t) as [t1 b1] eqn:E. destruct (step_kinds _ _ _ _ E) as [A B]. destruct b1.
    + destruct (IH _ _ _ H) as [A' B']. split; [auto|]. intros q c Hq. destruct (B q c Hq) as (c1 & H1). eauto.
    + injection H as <- <-. split; [auto|eauto].
Qed.

(* ------------------------------------------------------------ the result *)
(* whatever happened: a file there now was there, or is one that was to be written *)
Lemma step_file : forall o t t' b q c, step o t = (t', b) -> node_at t' q = Some (NFile c) ->
  node_at t q = Some (NFile c) \/ o = OFile q c.
Proof.
  intros [d|p c0] t t' b q c H Hq; cbn [step] in H.
  - left. destruct (make_dirs_cases t d) as [(t1 & E & A & B & C)|(E & _)]; rewrite E in H; injection H as <- <-; [|exact Hq].
    destruct (node_at t q) as [n|] eqn:Eq; [rewrite B in Hq; congruence|].
    destruct (ArchiveProofs.on_way_dec d [] q) as [W|W].
    + apply on_the_way_on_way in W. rewrite (A q W) in Hq. discriminate.
    + rewrite <- on_the_way_on_way in W. rewrite (C q Eq W) in Hq. discriminate.
  - unfold write_file in H. destruct (node_at t (removelast p)) as [[|]|]; try (injection H as <- <-; left; exact Hq).
    assert (G : (t', b) = (put t p (NFile c0), true) \/ (t', b) = (t, false)) by (destruct (node_at t p) as [[|]|]; auto).
    destruct G as [G|G]; injection G as -> ->; [|left; exact Hq].
    destruct (ArchiveProofs.names_eqb_spec q p) as [->|N].
    + destruct p as [|x p]; [discriminate Hq|]. rewrite ArchiveProofs.node_put_same in Hq by discriminate.
      injection Hq as ->. right. reflexivity.
    + rewrite ArchiveProofs.node_put_other in Hq by exact N. left. exact Hq.
Qed.

Lemma run_file : forall l t t' b q c, run l t = (t', b) -> node_at t' q = Some (NFile c) ->
  node_at t q = Some (NFile c) \/ In (OFile q c) l.
Proof.
  induction l as [|o l IH]; intros t t' b q c H Hq; cbn [run] in H.
  - injection H as <- <-. left. exact Hq.
  - destruct (step o t) as [t1 b1] eqn:E. destruct b1.
    + destruct (IH _ _ _ _ _ H Hq) as [G|G]; [|right; right; exact G].
      destruct (step_file _ _ _ _ _ _ E G) as [G'| ->]; [left; exact G'|right; left; reflexivity].
    + injection H as <- <-. destruct (step_file _ _ _ _ _ _ E Hq) as [G'| ->]; [left; exact G'|right; left; reflexivity].
Qed.

(* a place that is not written to: kept, or made as a directory *)
Lemma step_other : forall o t t' b q, step o t = (t', b) -> (forall c, o <> OFile q c) ->
  (forall n, node_at t q = Some n -> node_at t' q = Some n) /\
  (node_at t q = None -> node_at t' q = None \/ node_at t' q = Some NDir /\ exists d, o = ODir d /\ on_the_way q d).
Proof.
  intros [d|p c0] t t' b q H N; cbn [step] in H.
  - destruct (make_dirs_cases t d) as [(t1 & E & A & B & C)|(E & _)]; rewrite E in H; injection H as <- <-.
    + split; [intros n Hn; rewrite B; congruence|]. intros Hn.
      destruct (ArchiveProofs.on_way_dec d [] q) as [W|W].
      * right. apply on_the_way_on_way in W. eauto.
      * left. rewrite <- on_the_way_on_way in W. auto.
    + split; auto.
  - assert (Nq : q <> p) by (intros ->; exact (N c0 eq_refl)).
    unfold write_file in H. destruct (node_at t (removelast p)) as [[|]|]; try (injection H as <- <-; split; auto).
    assert (G : (t', b) = (put t p (NFile c0), true) \/ (t', b) = (t, false)) by (destruct (node_at t p) as [[|]|]; auto).
    destruct G as [G|G]; injection G as -> ->; [|split; auto].
    rewrite ArchiveProofs.node_put_other by exact Nq. split; auto.
Qed.

Lemma run_other : forall l t t' b q, run l t = (t', b) -> (forall c, ~ In (OFile q c) l) ->
  (forall n, node_at t q = Some n -> node_at t' q = Some n) /\
  (node_at t q = None -> node_at t' q = None \/ node_at t' q = Some NDir /\ exists d, In (ODir d) l /\ on_the_way q d).
Proof.
  induction l as [|o l IH]; intros t t' b q H N; cbn [run] in H.
  - injection H as <- <-. split; auto.
  - destruct (step o t) as [t1 b1] eqn:E.
    destruct (step_other _ _ _ _ q E) as [A B]; [intros c ->; apply (N c); left; reflexivity|]. destruct b1.
    + destruct (IH _ _ _ q H) as [A' B']; [intros c Hc; apply (N c); right; exact Hc|]. split; [auto|].
      intros Hq. destruct (B Hq) as [B1|(B1 & d & -> & W)].
      * destruct (B' B1) as [B2|(B2 & d & Hd & W)]; [left; exact B2|right; split; [exact B2|]; exists d; split; [right; exact Hd|exact W]].
      * right. split; [apply A'; exact B1|]. exists d. split; [left; reflexivity|exact W].
    + injection H as <- <-. split; [exact A|]. intros Hq. destruct (B Hq) as [B1|(B1 & d & -> & W)]; [left; exact B1|].
      right. split; [exact B1|]. exists d. split; [left; reflexivity|exact W].
Qed.

Definition files_of (l : list op) : list (list string * string) :=
  flat_map (fun o => match o with OFile p c => [(p, c)] | ODir _ => [] end) l.

Lemma in_files_of : forall l p c, In (p, c) (files_of l) <-> In (OFile p c) l.
Proof.
  intros l p c. unfold files_of. rewrite in_flat_map. split.
  - intros ([d|p' c'] & H & G); [destruct G|]. destruct G as [G|[]]. injection G as -> ->. exact H.
  - intros H. exists (OFile p c). split; [exact H|left; reflexivity].
Qed.

(* after a run without an error everything is in place *)
Lemma run_done : forall l t t', run l t = (t', true) -> NoDup (map fst (files_of l)) -> (forall c, ~ In (OFile [] c) l) ->
  (forall q c, In (OFile q c) l -> node_at t' q = Some (NFile c)) /\
  (forall d q, In (ODir d) l -> on_the_way q d -> node_at t' q = Some NDir).
Proof.
  induction l as [|o l IH]; intros t t' H N Z; cbn [run] in H.
  - split; [intros q c []|intros d q []].
  - destruct (step o t) as [t1 b1] eqn:E. destruct b1; [|discriminate H].
    assert (N' : NoDup (map fst (files_of l))).
    { destruct o; cbn [files_of flat_map] in N; cbn [app map] in N; [exact N|]. inversion N; assumption. }
    destruct (IH _ _ H N') as [A B]; [intros c Hc; apply (Z c); right; exact Hc|].
    destruct (run_kinds _ _ _ _ H) as [K _]. split.
    + intros q c [->|Hq]; [|apply A; exact Hq].
      assert (Hn : forall c', ~ In (OFile q c') l).
      { intros c' Hc. cbn [files_of flat_map app map fst] in N. inversion N as [|x y Hx Hy]; subst. apply Hx.
        apply in_files_of in Hc. apply (in_map fst) in Hc. exact Hc. }
      destruct (run_other _ _ _ _ q H Hn) as [A' _]. apply A'.
      cbn [step] in E. unfold write_file in E. destruct (node_at t (removelast q)) as [[|]|]; try discriminate E.
      assert (G : t1 = put t q (NFile c)) by (destruct (node_at t q) as [[|]|]; congruence).
      rewrite G. apply ArchiveProofs.node_put_same. intros ->. exact (Z c (or_introl eq_refl)).
    + intros d q [->|Hd] W; [|apply (B d); assumption]. apply K. cbn [step] in E.
      destruct (make_dirs_cases t d) as [(t2 & E2 & A2 & _)|(E2 & _)]; rewrite E2 in E; [|discriminate E].
      injection E as <-. apply A2. exact W.
Qed.

(* and only then *)
Lemma run_needs : forall l t t', run l t = (t', true) ->
  (forall d q c, In (ODir d) l -> on_the_way q d -> node_at t q <> Some (NFile c)) /\
  (forall q c, In (OFile q c) l -> node_at t q <> Some NDir).
Proof.
  induction l as [|o l IH]; intros t t' H; cbn [run] in H.
  - split; [intros d q c []|intros q c []].
  - destruct (step o t) as [t1 b1] eqn:E. destruct b1; [|discriminate H].
    destruct (IH _ _ H) as [A B]. destruct (step_kinds _ _ _ _ E) as [K1 K2]. split.
    + intros d q c [->|Hd] W Hq.
      * cbn [step] in E. rewrite (make_dirs_blocked d t [] q c) in E; [discriminate E|apply on_the_way_on_way; exact W|exact Hq].
      * destruct (K2 q c Hq) as (c' & Hc). exact (A d q c' Hd W Hc).
    + intros q c [->|Hq] Hd.
      * cbn [step] in E. unfold write_file in E. rewrite Hd in E. destruct (node_at t (removelast q)) as [[|]|]; discriminate E.
      * exact (B q c Hq (K1 q Hd)).
Qed.

(* operations that fit together, on a disk with nothing in the way *)
Lemma run_succeeds : forall l t done,
  (forall d q c, In (ODir d) l -> on_the_way q d -> node_at t q <> Some (NFile c)) ->
  (forall q c, In (OFile q c) l -> node_at t q <> Some NDir) ->
  (forall d q c, In (ODir d) (done ++ l) -> on_the_way q d -> ~ In (OFile q c) l) ->
  (forall d, In (ODir d) done -> node_at t d = Some NDir) ->
  (forall a q c b, l = a ++ OFile q c :: b -> In (ODir (removelast q)) (done ++ a)) ->
  exists t', run l t = (t', true).
Proof.
  induction l as [|o l IH]; intros t done A B C D O; [exists t; reflexivity|].
  cbn [run].
  assert (S : exists t1, step o t = (t1, true)).
  { destruct o as [d|q c]; cbn [step].
    - destruct (make_dirs_cases t d) as [(t1 & E & _)|(E & q & c & W & H)]; [rewrite E; eauto|].
      destruct (A d q c (or_introl eq_refl) W H).
    - unfold write_file. specialize (O [] q c l eq_refl). rewrite app_nil_r in O. rewrite (D _ O).
      destruct (node_at t q) as [[|]|] eqn:E; eauto. destruct (B q c (or_introl eq_refl) E). }
  destruct S as (t1 & E). rewrite E. apply (IH t1 (done ++ [o])).
  - intros d q c Hd W Hq. destruct (step_file _ _ _ _ _ _ E Hq) as [G|G].
    + exact (A d q c (or_intror Hd) W G).
    + subst o. apply (C d q c); [apply in_app_iff; right; right; exact Hd|exact W|left; reflexivity].
  - intros q c Hq Hd. destruct (node_at t q) as [[|c']|] eqn:G.
    + exact (B q c (or_intror Hq) G).
    + destruct (step_kinds _ _ _ _ E) as [_ K]. destruct (K q c' G) as (c2 & K2). congruence.
    + destruct o as [d|q' c'].
      * destruct (step_other _ _ _ _ q E) as [_ N]; [discriminate|]. destruct (N G) as [N1|(N1 & d' & Ed & W)]; [congruence|].
        injection Ed as <-. apply (C d q c); [apply in_app_iff; right; left; reflexivity|exact W|right; exact Hq].
      * destruct (ArchiveProofs.names_eqb_spec q q') as [->|Nq].
        -- cbn [step] in E. unfold write_file in E. destruct (node_at t (removelast q')) as [[|]|]; try discriminate E.
           rewrite G in E. injection E as <-. destruct q' as [|x q']; [discriminate G|].
           rewrite ArchiveProofs.node_put_same in Hd by discriminate. discriminate Hd.
        -- destruct (step_other _ _ _ _ q E) as [_ N]; [congruence|]. destruct (N G) as [N1|(N1 & d' & Ed & W)]; [congruence|discriminate Ed].
  - intros d q c Hd W Hq. rewrite <- app_assoc in Hd. cbn [app] in Hd. exact (C d q c Hd W (or_intror Hq)).
  - intros d Hd. apply in_app_iff in Hd as [Hd|[->|[]]].
    + destruct (step_kinds _ _ _ _ E) as [K _]. apply K, D, Hd.
    + cbn [step] in E. destruct (make_dirs_cases t d) as [(t2 & E2 & A2 & _)|(E2 & _)]; rewrite E2 in E; [|discriminate E].
      injection E as <-. destruct d as [|x d]; [reflexivity|]. apply A2. split; [discriminate|]. exists []. symmetry. apply app_nil_r.
  - intros a q c b Hl. rewrite <- app_assoc. cbn [app]. apply (O (o :: a) q c b). rewrite Hl. reflexivity.
Qed.
