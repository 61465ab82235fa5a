(* C32: the references of a resolved registry and its attribute catalog. *)
From Coq Require Import String Ascii Bool Arith Lia Permutation Sorted List.
Import ListNotations.
From Verif Require Import Base BaseProofs BaseProofs2 Json SemTypes Resolved Semver DefModel ResolveModel
  ResolveSpec ResolveProofs.
Local Open Scope string_scope.

Lemma same_fields_refl g : same_fields g g.
Proof. unfold same_fields. repeat (split; [reflexivity|]). reflexivity. Qed.

Lemma forall2_exists {A B} (R : A -> B -> Prop) (l : list A) :
  (forall x, In x l -> exists y, R x y) -> exists m, Forall2 R l m.
Proof.
  induction l as [|x l IH]; intros H; [exists []; constructor|].
  destruct (H x (or_introl eq_refl)) as [y Hy].
  destruct IH as [m Hm]; [intros z Hz; apply H; right; exact Hz|].
  exists (y :: m). constructor; assumption.
Qed.
Lemma forall2_perm {A B} (R : A -> B -> Prop) (l l' : list A) : Permutation l l' -> forall m,
  Forall2 R l m -> exists m', Permutation m m' /\ Forall2 R l' m'.
Proof.
  induction 1 as [|x l l' _ IH|x y l|l l1 l2 _ IH1 _ IH2]; intros m H.
  - exists m. split; [reflexivity|exact H].
  - inversion H as [|? b ? m1 Hx Hm]; subst. destruct (IH m1 Hm) as (m' & P & F).
    exists (b :: m'). split; [apply perm_skip, P|constructor; assumption].
  - inversion H as [|? b ? m1 Hx Hm]; subst. inversion Hm as [|? b' ? m2 Hy Hm2]; subst.
    exists (b' :: b :: m2). split; [apply perm_swap|]. repeat (constructor; try assumption).
  - destruct (IH1 m H) as (m1 & P1 & F1). destruct (IH2 m1 F1) as (m2 & P2 & F2).
    exists m2. split; [etransitivity; eassumption|exact F2].
Qed.

Lemma stabilize_correct leb order gs c out cat :
  (forall l, Permutation (order l) l) -> cat_ok c -> refs_ok c gs ->
  stabilize leb order gs c = (out, cat) ->
  (exists kept, Permutation kept (filter public gs) /\
     Forall2 (fun u g => same_data (ug_group u) g /\
                exists before after, attrs_in c u before /\ attrs_out cat g after /\ Permutation before after)
       kept out) /\
  NoDup cat /\
  (forall a, In a cat <-> exists u r, In u gs /\ In r (g_attributes (ug_group u)) /\ denotes c r a).
Proof.
  intros Ho Hc Hr H. unfold stabilize in H.
  set (used := used_refs gs) in *. set (l := gc_sorted leb order used (ct_refs c)) in *.
  set (rm := fun u => with_group u (set_attributes (map (remap (gc_map l)) (g_attributes (ug_group u))) (ug_group u))) in *.
  injection H as <- <-. split; [|split].
  - assert (P : Permutation (stable_sort (fun x y => str_leb (uid x) (uid y)) (map rm gs)) (map rm gs))
      by (symmetry; apply stable_sort_perm).
    (* the groups of the sorted list are images of groups of gs *)
    apply Permutation_sym in P.
    assert (F0 : Forall2 (fun v u => v = rm u /\ In u gs) (map rm gs) gs).
    { assert (G : forall l0, incl l0 gs -> Forall2 (fun v u => v = rm u /\ In u gs) (map rm l0) l0).
      { induction l0 as [|x l0 IH]; intros Hi; cbn [map]; constructor.
        - split; [reflexivity|apply Hi; left; reflexivity].
        - apply IH. intros y Hy. apply Hi. right. exact Hy. }
      apply G. intros x Hx. exact Hx. }
    destruct (forall2_perm _ _ _ P _ F0) as (gs' & P' & F1).
    exists (filter public gs'). split; [apply filter_perm, Permutation_sym, P'|].
    clear P P' F0. revert F1. generalize (stable_sort (fun x y => str_leb (uid x) (uid y)) (map rm gs)).
    intros srt F1. induction F1 as [|v u vs us [-> Hu] _ IH]; cbn [filter map]; [constructor|].
    assert (Ep : negb (is_internal (rm u)) = public u).
    { unfold is_internal, public. cbn [rm with_group ug_visibility]. destruct (ug_visibility u) as [[|]|]; reflexivity. }
    rewrite Ep. destruct (public u); [|exact IH]. cbn [map]. constructor; [|exact IH].
    split; [split; [unfold same_fields; repeat (split; [reflexivity|]); reflexivity|reflexivity]|].
    assert (Hb : forall r, In r (g_attributes (ug_group u)) -> exists a, denotes c r a).
    { intros r Hin. apply (Hr u r Hu Hin). }
    destruct (forall2_exists (denotes c) _ Hb) as [before Hbefore].
    assert (Ha : Forall2 (points_to (gc_catalog l)) (map (remap (gc_map l)) (g_attributes (ug_group u))) before).
    { assert (G : forall rs m, Forall2 (denotes c) rs m -> incl rs (g_attributes (ug_group u)) ->
                Forall2 (points_to (gc_catalog l)) (map (remap (gc_map l)) rs) m).
      { induction 1 as [|r a rs m Hd _ IHm]; intros Hi; cbn [map]; constructor.
        - apply remap_points; [exact Ho|exact Hc|exact Hd|].
          unfold used, used_refs. apply in_flat_map. exists u. split; [exact Hu|apply Hi; left; reflexivity].
        - apply IHm. intros y Hy. apply Hi. right. exact Hy. }
      apply G; [exact Hbefore|intros y Hy; exact Hy]. }
    destruct (forall2_perm _ _ _ (stable_sort_perm Nat.leb _) _ Ha) as (after & Pa & Fa).
    exists before, after. split; [exact Hbefore|]. split; [exact Fa|exact Pa].
  - apply gc_nodup_fst; [exact Ho|apply Hc].
  - intros a. unfold gc_catalog. rewrite in_map_iff. split.
    + intros ([a' r] & E & Hin). cbn [fst] in E. subst a'.
      apply gc_sorted_in in Hin as [H1 H2]; [|exact Ho]. cbn [snd] in H2.
      apply in_flat_map in H2 as (u & Hu & Hr'). exists u, r. auto.
    + intros (u & r & Hu & Hin & Hd). exists (a, r). split; [reflexivity|].
      apply gc_sorted_in; [exact Ho|]. split; [exact Hd|]. cbn [snd].
      apply in_flat_map. exists u. auto.
Qed.

(* A registry resolved from its definition files: every published group is one of the
   resolved groups, unchanged but for its references, which point into the catalog at exactly
   the attributes they stood for before; the catalog has no duplicate, and holds exactly the
   attributes referenced by some group.  What is missing: an entry may be referenced by
   internal groups only, which are not published (see the refutation below). *)
Theorem C32_catalog_references_partial : forall e leb order gs gs1 gs2 c out cat,
  (forall l, Permutation (order l) l) -> unreferenced gs ->
  resolve_extends e (map resolve_prefix gs) = Done gs1 ->
  resolve_references e gs1 empty_catalog = Done (gs2, c) ->
  stabilize leb order gs2 c = (out, cat) ->
  (exists kept, Permutation kept (filter public gs2) /\
     Forall2 (fun u g => same_data (ug_group u) g /\
                exists before after, attrs_in c u before /\ attrs_out cat g after /\ Permutation before after)
       kept out) /\
  (forall r a b, denotes c r a -> denotes c r b -> a = b) /\
  NoDup cat /\
  (forall a, In a cat <-> exists u r, In u gs2 /\ In r (g_attributes (ug_group u)) /\ denotes c r a).
Proof.
  intros e leb order gs gs1 gs2 c out cat Ho Hu He Hr Hs.
  assert (Hu' : unreferenced (map resolve_prefix gs)).
  { intros u Hin. apply in_map_iff in Hin as (x & <- & Hx). specialize (Hu x Hx).
    unfold resolve_prefix. destruct (String.eqb (g_prefix (ug_group x)) ""); exact Hu. }
  assert (H1 : unreferenced gs1).
  { eapply unreferenced_map; [|exact Hu']. unfold resolve_extends in He. eapply ext_loop_refs, He. }
  destruct (resolve_references_ok _ _ _ _ _ empty_ok (unreferenced_ok _ _ H1) Hr) as (Hc & _ & Hok).
  destruct (stabilize_correct _ _ _ _ _ _ Ho Hc Hok Hs) as (A & B & D).
  split; [exact A|]. split; [|split; assumption].
  intros r a b. apply denotes_fun, Hc.
Qed.
Print Assumptions C32_catalog_references_partial.

(* ---------- a concrete registry ---------- *)
(* an internal group nobody includes, and a public one *)
Definition reg32 : list ugroup :=
  [sample_group "shared" GAttributeGroup (Some Internal) None [] [sample_id "x" "used inside"];
   sample_group "http" GSpan None None [] [sample_id "b" "second"; sample_id "a" "first"; sample_ref "a" None]].

Example C32_case :
  exists gs1 gs2 c out cat,
    unreferenced reg32 /\
    resolve_extends no_env (map resolve_prefix reg32) = Done gs1 /\
    resolve_references no_env gs1 empty_catalog = Done (gs2, c) /\
    stabilize (fun a b => str_leb (at_name a) (at_name b)) (fun l => l) gs2 c = (out, cat) /\
    map g_id out = ["http"] /\ map g_attributes out = [[0; 0; 1]] /\ map at_name cat = ["a"; "b"; "x"].
Proof.
  do 5 eexists. split; [intros u [<-|[<-|[]]]; reflexivity|].
  split; [vm_compute; reflexivity|]. split; [vm_compute; reflexivity|].
  split; [vm_compute; reflexivity|]. split; [|split]; reflexivity.
Qed.

(* C32 as stated, "the catalog contains no unreferenced entry", is false: *)
Theorem C32_no_unreferenced_entry_refuted :
  ~ (forall e leb order gs gs1 gs2 c out cat,
       (forall l, Permutation (order l) l) -> unreferenced gs ->
       resolve_extends e (map resolve_prefix gs) = Done gs1 ->
       resolve_references e gs1 empty_catalog = Done (gs2, c) ->
       stabilize leb order gs2 c = (out, cat) ->
       forall i, i < length cat -> exists g, In g out /\ In i (g_attributes g)).
Proof.
  intros H. destruct C32_case as (gs1 & gs2 & c & out & cat & Hu & H1 & H2 & H3 & _ & H5 & H6).
  specialize (H no_env (fun a b => str_leb (at_name a) (at_name b)) (fun l => l) reg32 gs1 gs2 c out cat
                (fun l => Permutation_refl l) Hu H1 H2 H3 2).
  assert (L : 2 < length cat).
  { assert (E : length (map at_name cat) = 3) by (rewrite H6; reflexivity). rewrite map_length in E. rewrite E. lia. }
  destruct (H L) as (g & Hg & Hi). apply (in_map g_attributes) in Hg. rewrite H5 in Hg.
  destruct Hg as [E|[]]. rewrite <- E in Hi. cbn in Hi. destruct Hi as [Hi|[Hi|[Hi|[]]]]; discriminate Hi.
Qed.
Print Assumptions C32_no_unreferenced_entry_refuted.
