From Coq Require Import String Ascii Bool Arith ZArith NArith Lia Sorted List.
Import ListNotations.
From Verif Require Import Base BaseProofs Json SemTypes Resolved.
From Verif Require SchemaDiffModel SchemaDiffSpec DefModel UrlModel JinModel JinSpec JinProofs StrProofs Str.
Import JinModel JinSpec JinProofs.
From Verif Require Import PubModel PubSpec PubProofs PubProofs2.
Local Open Scope string_scope.
Arguments under _ _ : simpl never.
Arguments write_common _ : simpl never.
Arguments write_provenance _ : simpl never.
Arguments unless {A} _ _ _ _ : simpl never.
Arguments if_some {A} _ _ _ : simpl never.
Arguments one_prov _ : simpl never.
Arguments write_vec {A} _ _ : simpl never.

Ltac at_key := rewrite ?under_cons, ?under_app, ?under_cons, ?under_app, ?under_unless, ?under_if_some, ?under_nil, ?under_prov,
                 ?under_common_other by reflexivity; cbn; rewrite ?app_nil_r; reflexivity.
Ltac at_common := let k := fresh "k" in let Hk := fresh "Hk" in intros k Hk; cbn in Hk; decompose [or] Hk; try contradiction; subst k; at_key.
Ltac keys := let k := fresh "k" in let Hk := fresh "Hk" in intros k Hk; rewrite ?map_app in Hk; cbn [map fst] in Hk;
  repeat match goal with
         | H : In _ (_ ++ _) |- _ => apply in_app_or in H; destruct H as [H|H]
         | H : In _ (map fst (write_common _)) |- _ => apply keys_common in H; cbn in H |- *; tauto
         | H : In _ (map fst (write_provenance _)) |- _ => apply keys_prov in H; cbn in H |- *; tauto
         | H : In _ (map fst (unless ?s _ _ ?a)) |- _ =>
             unfold unless in H; destruct (s a); cbn in H |- *; tauto
         | H : In _ (map fst (if_some _ _ None)) |- _ => destruct H
         | H : In _ (map fst (if_some _ _ ?o)) |- _ => unfold if_some in H; destruct o; cbn in H |- *; tauto
         | H : In _ (_ :: _) |- _ => cbn in H |- *; tauto
         | H : In _ [] |- _ => destruct H
         end.

Lemma vec_back : forall {A} (rd : json -> option A) w (P : A -> Prop) l,
  (forall a, P a -> rd (w a) = Some a) -> Forall P l -> read_vec rd (write_vec w l) = Some l.
Proof. intros A rd w P l H F. apply vec_id. eapply Forall_impl; [|exact F]. exact H. Qed.
Lemma vec_kept : forall {A B} (rd : json -> option B) w (g : A -> B) (P : A -> Prop) l,
  (forall a, P a -> rd (w a) = Some (g a)) -> Forall P l -> read_vec rd (write_vec w l) = Some (map g l).
Proof. intros A B rd w g P l H F. apply vec_map. eapply Forall_impl; [|exact F]. exact H. Qed.
Lemma nil_is : forall {A} (l : list A), is_nil l = true -> l = [].
Proof. destruct l; [reflexivity|discriminate]. Qed.

Lemma use_back : forall u, use_ok u -> read_use (write_use u) = Some u.
Proof.
  intros [b r s] [Hb Hs]. cbn in Hb, Hs. subst s. unfold read_use, write_use. cbn [entries obind u_base u_req u_sampling].
  rewrite known_ok by keys. cbn [obind].
  rewrite (req_back read_ref PubModel.write_ref (fun x => x) b "base"); [|at_key|now apply ref_back]. cbn [obind].
  rewrite (req_back read_level PubModel.write_level (fun x => x) r "requirement_level"); [|at_key|apply level_back].
  reflexivity.
Qed.
Lemma span_use_back : forall u, span_use_ok u -> read_span_use (write_use u) = Some u.
Proof.
  intros [b r s] Hb. cbn in Hb. unfold read_span_use, write_use. cbn [entries obind u_base u_req u_sampling].
  rewrite known_ok by keys. cbn [obind].
  rewrite (req_back read_ref PubModel.write_ref (fun x => x) b "base"); [|at_key|now apply ref_back]. cbn [obind].
  rewrite (req_back read_level PubModel.write_level (fun x => x) r "requirement_level"); [|at_key|apply level_back].
  cbn [obind].
  rewrite (opt_some read_bool JBool (fun x => x) s "sampling_relevant"); [|at_key|intros a _; split; [reflexivity|discriminate]].
  destruct s; reflexivity.
Qed.

Lemma entity_ref_back : forall r, provenance_ok (er_provenance r) ->
  read_entity_ref (write_entity_ref r) = Some (kept_ref r).
Proof.
  intros [t p] H. cbn in H. unfold read_entity_ref, write_entity_ref, kept_ref. cbn [entries obind er_type er_provenance].
  rewrite known_ok by keys. cbn [obind].
  rewrite (req_back read_string JStr (fun x => x) t "type"); [|at_key|reflexivity]. cbn [obind].
  rewrite (prov_back p); [reflexivity|exact H|at_key].
Qed.

Definition read_all := fix all (l : list json) : option (list (assoc entity_ref)) :=
  match l with
  | [] => Some []
  | x :: r => match read_assoc x, all r with Some a, Some b => Some (a :: b) | _, _ => None end
  end.
Lemma read_one_of : forall l, read_assoc (JObj [("one_of", JArr l)]) = option_map AOneOf (read_all l).
Proof. intros l. cbn. fold read_all. change ((fix all (l0 : list json) := _) l) with (read_all l). destruct (read_all l); reflexivity. Qed.
Lemma read_all_of : forall l, read_assoc (JObj [("all_of", JArr l)]) = option_map AAllOf (read_all l).
Proof. intros l. cbn. change ((fix all (l0 : list json) := _) l) with (read_all l). destruct (read_all l); reflexivity. Qed.
Lemma read_all_back : forall l,
  Forall (fun a => assoc_ok a -> read_assoc (write_assoc a) = Some (kept_assoc a)) l ->
  (forall r, In r (flat_map leaves l) -> provenance_ok (er_provenance r)) ->
  read_all (map write_assoc l) = Some (map kept_assoc l).
Proof.
  intros l H. induction H as [|a l Ha _ IH]; intros Hl; [reflexivity|]. cbn [map read_all].
  rewrite Ha by (intros r Hr; apply Hl; cbn; apply in_or_app; left; exact Hr).
  rewrite IH by (intros r Hr; apply Hl; cbn; apply in_or_app; right; exact Hr). reflexivity.
Qed.
Lemma assoc_ref : forall r, read_assoc (write_entity_ref r) = 
  match read_entity_ref (write_entity_ref r) with Some x => Some (ARef x) | None => read_assoc (write_entity_ref r) end.
Proof.
  intros r. destruct (read_entity_ref (write_entity_ref r)) as [x|] eqn:E; [|reflexivity].
  unfold write_entity_ref in *. cbn [read_assoc]. rewrite E. reflexivity.
Qed.
Lemma assoc_back : forall a, assoc_ok a -> read_assoc (write_assoc a) = Some (kept_assoc a).
Proof.
  intros a. induction a as [r|l IH|l IH] using assoc_ind2; intros H.
  - cbn [write_assoc kept_assoc]. rewrite assoc_ref, entity_ref_back; [reflexivity|]. apply H. cbn. auto.
  - cbn [write_assoc kept_assoc]. rewrite read_one_of, read_all_back; [reflexivity|exact IH|exact H].
  - cbn [write_assoc kept_assoc]. rewrite read_all_of, read_all_back; [reflexivity|exact IH|exact H].
Qed.

Lemma group_back : forall g, group_ok g -> read_group (write_group g) = Some (kept_group g).
Proof.
  intros [i a c p] (Ha & Hc & Hp). cbn in Ha, Hc, Hp. unfold read_group, write_group, kept_group.
  cbn [entries obind ag2_id ag2_attributes ag2_common ag2_provenance].
  rewrite known_ok by keys. cbn [obind].
  rewrite (req_back read_string JStr (fun x => x) i "id"); [|at_key|reflexivity]. cbn [obind].
  rewrite (req_back (read_vec read_use) (write_vec write_use) (fun x => x) a "attributes");
    [|at_key|exact (vec_back _ _ _ _ use_back Ha)]. cbn [obind].
  rewrite (common_back c); [|exact Hc|at_common]. cbn [obind].
  rewrite (prov_back p); [reflexivity|exact Hp|at_key].
Qed.

Lemma span_name_back : forall n, read_span_name (JObj [("note", JStr n)]) = Some n.
Proof. reflexivity. Qed.

Lemma span_back : forall s, span_ok s -> read_span_fields (span_fields s) = Some (kept_span s).
Proof.
  intros [t k n a e l c p] (Ha & He & Hc & Hp). cbn in Ha, He, Hc, Hp. unfold read_span_fields, span_fields, kept_span.
  cbn [sp2_type sp2_kind sp2_name sp2_attributes sp2_assocs sp2_level sp2_common sp2_provenance].
  rewrite known_ok by keys. cbn [obind].
  rewrite (req_back read_string JStr (fun x => x) t "type"); [|at_key|reflexivity]. cbn [obind].
  rewrite (req_back (read_named span_kind_of_name) write_kind (fun x => x) k "kind"); [|at_key|apply kind_back]. cbn [obind].
  rewrite (req_back read_span_name (fun n => JObj [("note", JStr n)]) (fun x => x) n "name"); [|at_key|apply span_name_back]. cbn [obind].
  rewrite (def_unless [] (read_vec read_span_use) (write_vec write_use) (fun x => x) is_nil a "attributes");
    [|at_key|apply nil_is|exact (vec_back _ _ _ _ span_use_back Ha)]. cbn [obind].
  rewrite (def_unless [] (read_vec read_assoc) (write_vec write_assoc) (map kept_assoc) is_nil e "entity_associations");
    [|at_key|intros Q; rewrite (nil_is _ Q); reflexivity|exact (vec_kept _ _ _ _ _ assoc_back He)]. cbn [obind].
  rewrite (opt_some (read_named signal_level_of_name) write_signal_level (fun x => x) l "requirement_level");
    [|at_key|intros x _; split; [apply signal_level_back|discriminate]]. cbn [obind].
  rewrite (common_back c); [|exact Hc|at_common]. cbn [obind].
  rewrite (prov_back p); [destruct l; reflexivity|exact Hp|at_key].
Qed.
Lemma metric_back : forall s, metric_ok s -> read_metric_fields (metric_fields s) = Some (kept_metric s).
Proof.
  intros [n i u a e l c p] (Ha & He & Hc & Hp). cbn in Ha, He, Hc, Hp. unfold read_metric_fields, metric_fields, kept_metric.
  cbn [me2_name me2_instrument me2_unit me2_attributes me2_assocs me2_level me2_common me2_provenance].
  rewrite known_ok by keys. cbn [obind].
  rewrite (req_back read_string JStr (fun x => x) n "name"); [|at_key|reflexivity]. cbn [obind].
  rewrite (req_back (read_named instrument_of_name) PubModel.write_instrument (fun x => x) i "instrument"); [|at_key|apply instrument_back]. cbn [obind].
  rewrite (req_back read_string JStr (fun x => x) u "unit"); [|at_key|reflexivity]. cbn [obind].
  rewrite (def_unless [] (read_vec read_use) (write_vec write_use) (fun x => x) is_nil a "attributes");
    [|at_key|apply nil_is|exact (vec_back _ _ _ _ use_back Ha)]. cbn [obind].
  rewrite (def_unless [] (read_vec read_assoc) (write_vec write_assoc) (map kept_assoc) is_nil e "entity_associations");
    [|at_key|intros Q; rewrite (nil_is _ Q); reflexivity|exact (vec_kept _ _ _ _ _ assoc_back He)]. cbn [obind].
  rewrite (opt_some (read_named signal_level_of_name) write_signal_level (fun x => x) l "requirement_level");
    [|at_key|intros x _; split; [apply signal_level_back|discriminate]]. cbn [obind].
  rewrite (common_back c); [|exact Hc|at_common]. cbn [obind].
  rewrite (prov_back p); [destruct l; reflexivity|exact Hp|at_key].
Qed.
Lemma event_back : forall s, event_ok s -> read_event_fields (event_fields s) = Some (kept_event s).
Proof.
  intros [n a e l c p] (Ha & He & Hc & Hp). cbn in Ha, He, Hc, Hp. unfold read_event_fields, event_fields, kept_event.
  cbn [ev2_name ev2_attributes ev2_assocs ev2_level ev2_common ev2_provenance].
  rewrite known_ok by keys. cbn [obind].
  rewrite (req_back read_string JStr (fun x => x) n "name"); [|at_key|reflexivity]. cbn [obind].
  rewrite (def_unless [] (read_vec read_use) (write_vec write_use) (fun x => x) is_nil a "attributes");
    [|at_key|apply nil_is|exact (vec_back _ _ _ _ use_back Ha)]. cbn [obind].
  rewrite (def_unless [] (read_vec read_assoc) (write_vec write_assoc) (map kept_assoc) is_nil e "entity_associations");
    [|at_key|intros Q; rewrite (nil_is _ Q); reflexivity|exact (vec_kept _ _ _ _ _ assoc_back He)]. cbn [obind].
  rewrite (opt_some (read_named signal_level_of_name) write_signal_level (fun x => x) l "requirement_level");
    [|at_key|intros x _; split; [apply signal_level_back|discriminate]]. cbn [obind].
  rewrite (common_back c); [|exact Hc|at_common]. cbn [obind].
  rewrite (prov_back p); [destruct l; reflexivity|exact Hp|at_key].
Qed.
Lemma entity_back : forall s, entity_ok s -> read_entity_fields (entity_fields s) = Some (kept_entity s).
Proof.
  intros [t i d l c p] (Hi & Hd & Hc & Hp). cbn in Hi, Hd, Hc, Hp. unfold read_entity_fields, entity_fields, kept_entity.
  cbn [en2_type en2_identity en2_description en2_level en2_common en2_provenance].
  rewrite known_ok by keys. cbn [obind].
  rewrite (req_back read_string JStr (fun x => x) t "type"); [|at_key|reflexivity]. cbn [obind].
  rewrite (req_back (read_vec read_use) (write_vec write_use) (fun x => x) i "identity");
    [|at_key|exact (vec_back _ _ _ _ use_back Hi)]. cbn [obind].
  rewrite (def_unless [] (read_vec read_use) (write_vec write_use) (fun x => x) is_nil d "description");
    [|at_key|apply nil_is|exact (vec_back _ _ _ _ use_back Hd)]. cbn [obind].
  rewrite (opt_some (read_named signal_level_of_name) write_signal_level (fun x => x) l "requirement_level");
    [|at_key|intros x _; split; [apply signal_level_back|discriminate]]. cbn [obind].
  rewrite (common_back c); [|exact Hc|at_common]. cbn [obind].
  rewrite (prov_back p); [destruct l; reflexivity|exact Hp|at_key].
Qed.
