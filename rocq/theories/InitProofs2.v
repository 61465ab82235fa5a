(* The operations of an initialisation are the templates that were asked for. *)
From Coq Require Import String Ascii Bool Arith Lia List.
From Verif Require Import Base SemTypes ArchiveModel InitModel InitSpec InitProofs.
From Verif Require VdirModel.
From Verif Require ForgeModel ForgeSpec ArchiveProofs PropForge ArchiveSpec.
Import ForgeModel ForgeSpec.
Import ListNotations.
Open Scope list_scope.

Lemma files_of_app : forall a b, files_of (a ++ b) = files_of a ++ files_of b.
Proof. intros a b. unfold files_of. apply flat_map_app. Qed.

Lemma ops_files : forall n base dir,
  files_of (ops base dir n) = map (fun pc => (base ++ dir ++ fst pc, snd pc)) (files_below n).
Proof.
  induction n as [name c|name es IH] using PropForge.enode_ind2; intros base dir; [reflexivity|].
  cbn [ops files_below]. change (files_of (ODir ?x :: ?l)) with (files_of l). rewrite map_map.
  induction IH as [|x l Hx IH IHl]; [reflexivity|]. cbn [flat_map]. rewrite files_of_app, map_app, IHl, Hx. f_equal.
  apply map_ext. intros [p c]. cbn [fst snd]. rewrite <- app_assoc. reflexivity.
Qed.

Lemma ops_dirs : forall n base dir d, In (ODir d) (ops base dir n) <-> exists p, directory_of n p /\ d = base ++ dir ++ p.
Proof.
  induction n as [name c|name es IH] using PropForge.enode_ind2; intros base dir d; cbn [ops].
  - split; [intros [H|[]]; discriminate H|intros (p & H & _); inversion H].
  - rewrite Forall_forall in IH. cbn [In]. split.
    + intros [H|H].
      * injection H as <-. exists [name]. split; [constructor|reflexivity].
      * apply in_flat_map in H as (x & Hx & H). apply (IH x Hx) in H as (p & H & ->). exists (name :: p).
        split; [apply (dir_below _ _ x); assumption|]. rewrite <- app_assoc. reflexivity.
    + intros (p & H & ->). inversion H; subst; [left; reflexivity|]. right. apply in_flat_map. exists x.
      split; [assumption|]. apply IH; [assumption|]. exists p0. split; [assumption|]. rewrite <- app_assoc. reflexivity.
Qed.

Lemma split_app : forall {A} (l m a : list A) x b, l ++ m = a ++ x :: b ->
  (exists b', l = a ++ x :: b') \/ exists a', a = l ++ a' /\ m = a' ++ x :: b.
Proof.
  induction l as [|o l IH]; intros m a x b E; [right; exists a; auto|]. destruct a as [|o' a].
  - left. injection E as -> E. exists l. reflexivity.
  - injection E as -> E. destruct (IH _ _ _ _ E) as [(b' & ->)|(a' & -> & ->)].
    + left. exists b'. reflexivity.
    + right. exists a'. auto.
Qed.

Definition closed (P : list string) (l : list op) : Prop :=
  forall a q c b, l = a ++ OFile q c :: b -> In (ODir (removelast q)) a \/ removelast q = P.

Lemma closed_app : forall P l m, closed P l -> closed P m -> closed P (l ++ m).
Proof.
  intros P l m Hl Hm a q c b E. apply split_app in E as [(b' & E)|(a' & -> & E)].
  - exact (Hl a q c b' E).
  - destruct (Hm a' q c b E) as [G|G]; [left; apply in_app_iff; right; exact G|right; exact G].
Qed.

Lemma ops_closed : forall n base dir, closed (base ++ dir) (ops base dir n).
Proof.
  induction n as [name c|name es IH] using PropForge.enode_ind2; intros base dir; cbn [ops].
  - intros a q c' b E. destruct a as [|o a]; [|destruct a; discriminate E]. injection E as E1 E2 E3.
    right. rewrite <- E1, app_assoc. apply removelast_last.
  - assert (G : closed (base ++ dir ++ [name]) (flat_map (ops base (dir ++ [name])) es)).
    { induction IH as [|x l Hx IH IHl]; [intros a q c b E; destruct a; discriminate E|]. cbn [flat_map].
      apply closed_app; [apply Hx|exact IHl]. }
    intros a q c b E. destruct a as [|o a]; [discriminate E|]. injection E as <- E. left.
    destruct (G a q c b E) as [H| ->]; [right; exact H|left; reflexivity].
Qed.

Definition name_of (n : enode) : string := match n with EFile x _ => x | EDir x _ => x end.

Lemma same_name : forall l a b, NoDup (map name_of l) -> In a l -> In b l -> name_of a = name_of b -> a = b.
Proof.
  induction l as [|x l IH]; intros a b N Ha Hb E; [destruct Ha|]. cbn [map] in N. inversion N as [|y z Hy Hz]; subst.
  destruct Ha as [->|Ha], Hb as [->|Hb]; [reflexivity| | |apply IH; assumption].
  - exfalso. apply Hy. rewrite E. apply in_map. exact Hb.
  - exfalso. apply Hy. rewrite <- E. apply in_map. exact Ha.
Qed.

Lemma in_below : forall l p c, In (p, c) (flat_map files_below l) <->
  (exists x, p = [x] /\ In (EFile x c) l) \/
  (exists x es q, p = x :: q /\ In (EDir x es) l /\ In (q, c) (flat_map files_below es)).
Proof.
  intros l p c. rewrite in_flat_map. split.
  - intros ([x c'|x es] & Hn & H); cbn [files_below] in H.
    + destruct H as [H|[]]. injection H as <- <-. left. exists x. auto.
    + apply in_map_iff in H as ((q & c') & E & H). cbn [fst snd] in E. injection E as <- <-. right. exists x, es, q. auto.
  - intros [(x & -> & H)|(x & es & q & -> & H & G)].
    + exists (EFile x c). split; [exact H|left; reflexivity].
    + exists (EDir x es). split; [exact H|]. cbn [files_below]. apply in_map_iff. exists (q, c). auto.
Qed.

Lemma below_nonempty : forall l p c, In (p, c) (flat_map files_below l) -> p <> [].
Proof. intros l p c H. apply in_below in H as [(x & -> & _)|(x & es & q & -> & _)]; discriminate. Qed.

(* no file is on the way to a directory *)
Lemma file_not_dir : forall q l c n d rest, own_names l ->
  In (q, c) (flat_map files_below l) -> In n l -> directory_of n d -> d <> q ++ rest.
Proof.
  induction q as [|x q IH]; intros l c n d rest O H Hn Hd E; [exact (below_nonempty _ _ _ H eq_refl)|].
  inversion O as [l' N S E']; subst l'. fold name_of in N.
  apply in_below in H as [(y & Ey & H)|(y & es & q' & Ey & H & G)]; injection Ey as <- ->.
  - assert (Hx : name_of n = x) by (inversion Hd; subst; cbn [app] in *; cbn; congruence).
    assert (F : n = EFile x c) by (apply (same_name l); [exact N|exact Hn|exact H|exact Hx]).
    subst n. inversion Hd.
  - assert (Hx : name_of n = x) by (inversion Hd; subst; cbn [app] in *; cbn; congruence).
    assert (F : n = EDir x es) by (apply (same_name l); [exact N|exact Hn|exact H|exact Hx]).
    subst n. inversion Hd; subst.
    + cbn [app] in *. pose proof (below_nonempty _ _ _ G). destruct q'; [congruence|discriminate].
    + cbn [app] in *. match goal with K : _ :: _ = _ :: _ |- _ => injection K as K' end. subst.
      match goal with Hin : In ?z es, K : directory_of ?z _ |- _ => exact (IH es c z _ rest (S _ _ H) G Hin K eq_refl) end.
Qed.

Lemma NoDup_app : forall {A} (l m : list A), NoDup l -> NoDup m -> (forall x, In x l -> ~ In x m) -> NoDup (l ++ m).
Proof.
  induction l as [|a l IH]; intros m Hl Hm H; [exact Hm|]. inversion Hl; subst. cbn [app]. constructor.
  - rewrite in_app_iff. intros [G|G]; [auto|]. exact (H a (or_introl eq_refl) G).
  - apply IH; [assumption|exact Hm|]. intros x Hx. apply H. right. exact Hx.
Qed.

Lemma own_files : forall l, own_names l -> NoDup (map fst (flat_map files_below l)).
Proof.
  intros l O. induction O as [l N S IH]. fold name_of in N.
  assert (G : forall m, (forall x, In x m -> In x l) -> NoDup (map name_of m) -> NoDup (map fst (flat_map files_below m))).
  { induction m as [|n m IHm]; intros Hm Nm; [constructor|]. cbn [flat_map map] in *. rewrite map_app.
    inversion Nm as [|y z Hy Hz]; subst. apply NoDup_app.
    - destruct n as [x c|x es]; cbn [files_below]; [repeat constructor; intros []|].
      rewrite map_map. cbn [fst]. specialize (IH x es (Hm _ (or_introl eq_refl))).
      rewrite <- (map_map fst (cons x)). apply FinFun.Injective_map_NoDup; [|exact IH]. intros a b E. congruence.
    - apply IHm; [intros x Hx; apply Hm; right; exact Hx|exact Hz].
    - intros p Hp Hq. apply in_map_iff in Hp as ((p1 & c1) & <- & Hp). apply in_map_iff in Hq as ((p2 & c2) & E & Hq).
      cbn [fst] in *. subst p2. apply Hy.
      assert (K : exists r, p1 = name_of n :: r).
      { destruct n as [x c|x es]; cbn [files_below] in Hp.
        - destruct Hp as [Hp|[]]. injection Hp as <- _. exists []. reflexivity.
        - apply in_map_iff in Hp as ((r & c') & E & _). cbn in E. injection E as <- _. exists r. reflexivity. }
      destruct K as (r & ->). apply in_below in Hq as [(x & E & H)|(x & es & q & E & H & _)]; injection E as -> _.
      + apply (in_map name_of) in H. exact H.
      + apply (in_map name_of) in H. exact H. }
  apply G; auto.
Qed.

Lemma own_filter : forall f l, own_names l -> own_names (filter f l).
Proof.
  intros f l O. inversion O as [l' N S E]; subst l'. constructor.
  - clear S O. induction l as [|n l IH]; [constructor|]. cbn [map] in N. inversion N as [|y z Hy Hz]; subst.
    cbn [filter]. destruct (f n); [|apply IH; exact Hz]. cbn [map]. constructor; [|apply IH; exact Hz].
    intros H. apply Hy. apply in_map_iff in H as (m & E & H). apply filter_In in H as [H _]. rewrite <- E.
    apply (in_map (fun n => match n with EFile x _ => x | EDir x _ => x end)). exact H.
  - intros n es H. apply filter_In in H as [H _]. exact (S n es H).
Qed.

(* ------------------------------------------------------------ what is asked for *)
Lemma asked_spec : forall target name, target = ""%string \/ simple_name target -> simple_name name ->
  path_starts_with name target = true <-> asked target name.
Proof.
  intros target name [->|Ht] Hn; unfold asked, path_starts_with.
  - change (VdirModel.components "") with (@nil VdirModel.component). split; auto.
  - assert (E : VdirModel.components target = [VdirModel.Normal target]).
    { destruct Ht as (A & B & C & D).
      pose proof (ArchiveProofs.components_slashed target [] "" (or_introl (conj A (conj B (conj C D))))) as G.
      specialize (G (fun n H => match H with end) (or_introl eq_refl)).
      cbn [ArchiveSpec.slashed map] in G.
      assert (Z : forall s, (s ++ "")%string = s) by (induction s as [|c s IH]; cbn; congruence).
      rewrite Z in G. rewrite G. f_equal. unfold ArchiveProofs.top_component.
      destruct (String.eqb_spec target "."); congruence. }
    rewrite E. destruct Ht as (A & _). split.
    + intros H. apply String.eqb_eq in H. auto.
    + intros [H|H]; [congruence|]. apply String.eqb_eq. exact H.
Qed.

Section All.
  Variables (entries : list enode) (base : list string) (target : string).
  Hypothesis O : own_names entries.
  Hypothesis T : tops_are_directories entries.
  Hypothesis Ht : target = ""%string \/ simple_name target.
  Let L := all_ops base target entries.

  Lemma taken_asked : forall n, In n (filter (taken target) entries) <->
    exists name es, n = EDir name es /\ In (EDir name es) entries /\ asked target name.
  Proof.
    intros n. rewrite filter_In. split.
    - intros [H G]. destruct (T n H) as (name & es & -> & Hn). exists name, es. split; [reflexivity|]. split; [exact H|].
      apply asked_spec; assumption.
    - intros (name & es & -> & H & G). split; [exact H|]. cbn [taken]. destruct (T _ H) as (name' & es' & E & Hn).
      injection E as <- <-. apply asked_spec; assumption.
  Qed.

  Lemma all_files : files_of L = map (fun pc => (base ++ fst pc, snd pc)) (flat_map files_below (filter (taken target) entries)).
  Proof.
    unfold L, all_ops. induction (filter (taken target) entries) as [|n l IH]; [reflexivity|]. cbn [flat_map].
    rewrite files_of_app, ops_files, map_app, IH. reflexivity.
  Qed.

  Lemma all_in_file : forall q c, In (OFile q c) L <-> template entries base target q c.
  Proof.
    intros q c. rewrite <- in_files_of, all_files, in_map_iff. unfold template. split.
    - intros ((p & c') & E & H). cbn [fst snd] in E. injection E as <- <-. apply in_below in H as [(x & -> & H)|(x & es & r & -> & H & G)].
      + apply taken_asked in H as (name & es & E & _). discriminate E.
      + apply taken_asked in H as (name & es' & E & H & A). injection E as <- <-. exists x, es, r. auto.
    - intros (name & es & p & H & A & G & ->). exists (name :: p, c). split; [reflexivity|]. apply in_below. right.
      exists name, es, p. split; [reflexivity|]. split; [|exact G]. apply taken_asked. exists name, es. auto.
  Qed.

  Lemma all_in_dir : forall d, In (ODir d) L <->
    exists name es p, In (EDir name es) entries /\ asked target name /\ directory_of (EDir name es) p /\ d = base ++ p.
  Proof.
    intros d. unfold L, all_ops. rewrite in_flat_map. split.
    - intros (n & H & G). apply taken_asked in H as (name & es & -> & H & A). apply ops_dirs in G as (p & G & ->).
      exists name, es, p. auto.
    - intros (name & es & p & H & A & G & ->). exists (EDir name es). split; [apply taken_asked; exists name, es; auto|].
      apply ops_dirs. exists p. auto.
  Qed.

  Lemma all_needed : forall q, (exists d, In (ODir d) L /\ on_the_way q d) <-> needed entries base target q.
  Proof.
    intros q. unfold needed, on_the_way. split.
    - intros (d & H & N & rest & E). split; [exact N|]. apply all_in_dir in H as (name & es & p & H & A & G & ->).
      exists name, es, p, rest. auto.
    - intros (N & name & es & p & rest & H & A & G & E). exists (base ++ p). split; [apply all_in_dir; exists name, es, p; auto|].
      split; [exact N|]. exists rest. exact E.
  Qed.

  Lemma all_nodup : NoDup (map fst (files_of L)).
  Proof.
    rewrite all_files, map_map. cbn [fst]. rewrite <- (map_map fst (app base)).
    apply FinFun.Injective_map_NoDup; [intros a b E; apply app_inv_head in E; exact E|].
    apply own_files, own_filter, O.
  Qed.

  Lemma all_proper : forall c, ~ In (OFile [] c) L.
  Proof. intros c H. apply all_in_file in H as (name & es & p & _ & _ & _ & E). destruct base; discriminate E. Qed.

  Lemma all_apart : forall d q c, In (ODir d) L -> on_the_way q d -> ~ In (OFile q c) L.
  Proof.
    intros d q c Hd (N & rest & E) Hq. apply all_in_dir in Hd as (name & es & p & H & A & G & ->).
    apply all_in_file in Hq as (name' & es' & p' & H' & A' & G' & ->).
    rewrite <- app_assoc in E. apply app_inv_head in E.
    apply (file_not_dir (name' :: p') entries c (EDir name es) p rest O); [|exact H|exact G|exact E].
    apply in_below. right. exists name', es', p'. auto.
  Qed.

  Lemma all_ordered : forall a q c b, L = a ++ OFile q c :: b -> In (ODir (removelast q)) a.
  Proof.
    intros a q c b E.
    assert (C : closed (base ++ []) L).
    { unfold L, all_ops. induction (filter (taken target) entries) as [|n l IH].
      - intros a' q' c' b' E'. destruct a'; discriminate E'.
      - cbn [flat_map]. apply closed_app; [apply ops_closed|exact IH]. }
    destruct (C a q c b E) as [H|H]; [exact H|]. exfalso. rewrite app_nil_r in H.
    assert (F : In (OFile q c) L) by (rewrite E; apply in_app_iff; right; left; reflexivity).
    apply all_in_file in F as (name & es & p & _ & _ & G & ->). apply below_nonempty in G.
    destruct (exists_last G) as (p0 & x & ->).
    replace (base ++ name :: p0 ++ [x]) with ((base ++ name :: p0) ++ [x]) in H by (rewrite <- app_assoc; reflexivity).
    rewrite removelast_last in H. apply (f_equal (@length string)) in H. rewrite app_length in H. cbn in H. lia.
  Qed.
End All.
