(* The round trip: a live check of the telemetry that was emitted for a registry, against this registry. *)
From Coq Require Import String Ascii Bool Arith ZArith NArith Lia List.
Import ListNotations.
From Verif Require Import Base Json F64 SemTypes Resolved LiveModel LiveAdvisors LiveSpec BaseProofs LiveProofs LiveProofs2 LiveProofs3 IngestModel IngestSpec PropIngest EmitModel EmitSpec PropEmit.
From Verif Require InferModel.
Local Open Scope string_scope.

Definition fine (fs : list finding) : Prop := forall f, In f fs -> In (f_id f) expected_ids.
Lemma fine_nil : fine [].
Proof. intros f []. Qed.
Lemma fine_app a b : fine a -> fine b -> fine (app a b).
Proof. intros Ha Hb f H. apply in_app_iff in H as [H|H]; auto. Qed.
Lemma fine_concat ls : Forall fine ls -> fine (concat ls).
Proof. intros H. induction H; [apply fine_nil|]. cbn. apply fine_app; assumption. Qed.
Lemma fine_one f : In (f_id f) expected_ids -> fine [f].
Proof. intros H g [<-|[]]. exact H. Qed.

Lemma deprecated_fine r sig ra g fs : deprecated_advisor r sig ra g = Ok fs -> fine fs.
Proof.
  intros E. destruct (deprecated_spec r sig ra g) as (fs' & E' & H). assert (fs = fs') as -> by congruence.
  destruct (item_deprecated r ra g); [|subst; apply fine_nil]. destruct H as (f & -> & Hf & _). apply fine_one. rewrite Hf. cbn. auto.
Qed.
Lemma stability_fine r sig ra g fs : stability_advisor r sig ra g = Ok fs -> fine fs.
Proof.
  intros E. destruct (stability_spec r sig ra g) as (fs' & E' & H1 & H2). assert (fs = fs') as -> by congruence.
  assert (D : (item_stability r ra g = None \/ item_stability r ra g = Some SStable) \/
              exists s, item_stability r ra g = Some s /\ s <> SStable).
  { destruct (item_stability r ra g) as [[]|]; auto; right; eexists; (split; [reflexivity|discriminate]). }
  destruct D as [D|(s & D & N)]; [rewrite (H1 D); apply fine_nil|].
  destruct (H2 s D N) as (f & -> & Hf & _). apply fine_one. rewrite Hf. cbn. auto.
Qed.
Lemma advisors_fine show r sig ra g fss :
  Forall2 (fun adv fs => adv r sig ra g = Ok fs) (default_advisors show) fss ->
  (forall fs, type_advisor r sig ra g = Ok fs -> fine fs) ->
  (forall fs, enum_advisor show r sig ra g = Ok fs -> fine fs) -> fine (concat fss).
Proof.
  intros H Ht He. apply fine_concat. unfold default_advisors in H.
  inversion H as [|? f1 ? t1 H1 R1]; subst. inversion R1 as [|? f2 ? t2 H2 R2]; subst.
  inversion R2 as [|? f3 ? t3 H3 R3]; subst. inversion R3 as [|? f4 ? t4 H4 R4]; subst. inversion R4; subst.
  constructor; [exact (deprecated_fine _ _ _ _ _ H1)|]. constructor; [exact (stability_fine _ _ _ _ _ H2)|].
  constructor; [exact (Ht _ H3)|]. constructor; [exact (He _ H4)|]. constructor.
Qed.
Lemma entity_fine e attrs sig : fine (check_entity_resource_attributes e attrs sig).
Proof.
  intros f H. apply in_flat_map in H as ((k & q) & _ & H). cbn [fst snd] in H. unfold check_entity_attr in H.
  destruct (str_mem _ _); [destruct H|]. destruct H as [<-|[]]. cbn [f_id]. destruct q; cbn; intuition.
Qed.
Section Assoc.
  Context {L : Type} (key : L -> entity_key) (c : checker) (attrs : list sattr) (sig : sample).
  Lemma one_of_fine cs rs : Forall (fun r => fine (snd r)) rs -> fine (snd (one_of_results key sig cs rs)).
  Proof.
    intros H. unfold one_of_results.
    assert (G : forall acc, fine (snd acc) -> fine (snd (fold_left (fun acc (r : bool * list finding) => if fst r : bool then (true, app (snd acc) (snd r)) else acc) rs acc))).
    { induction H as [|r rs Hr Hrs IH]; intros acc Ha; [exact Ha|]. cbn [fold_left]. apply IH. destruct (fst r); [|exact Ha].
      cbn [snd]. apply fine_app; assumption. }
    specialize (G (false, []) fine_nil). destruct (fst _); [exact G|]. cbn [snd]. apply fine_one. cbn. auto.
  Qed.
  Lemma all_of_fine rs : Forall (fun r => fine (snd r)) rs -> fine (snd (all_of_results rs)).
  Proof.
    intros H. unfold all_of_results.
    assert (G : forall acc : bool * list finding, fine (snd acc) -> fine (snd (fold_left (fun acc (r : bool * list finding) => (fst acc && fst r, app (snd acc) (snd r))) rs acc))).
    { induction H as [|r rs Hr Hrs IH]; intros acc Ha; [exact Ha|]. cbn [fold_left]. apply IH. cbn [snd]. apply fine_app; assumption. }
    exact (G (true, []) fine_nil).
  Qed.
  Fixpoint eval_fine (a : assoc L) : fine (snd (eval_assoc key c attrs sig a)).
  Proof.
    destruct a as [l|cs|cs]; cbn [eval_assoc].
    - destruct (key_lookup c (key l)); [apply entity_fine|apply fine_nil].
    - apply one_of_fine. induction cs as [|x t IH]; constructor; [apply eval_fine|exact IH].
    - apply all_of_fine. induction cs as [|x t IH]; constructor; [apply eval_fine|exact IH].
  Qed.
  Lemma associations_fine l : fine (check_associations key c attrs sig l).
  Proof.
    destruct l as [|x [|y t]]; cbn [check_associations]; [apply fine_nil|apply eval_fine|].
    apply one_of_fine. apply Forall_forall. intros r H. apply in_map_iff in H as (a & <- & _). apply eval_fine.
  Qed.
End Assoc.
Lemma signal_assoc_fine c s sig : fine (signal_assoc_findings c s sig).
Proof. unfold signal_assoc_findings. destruct s as [[g|m|e]|]; [apply associations_fine..|apply fine_nil]. Qed.

(* ---------- values ---------- *)
Lemma not_null_elem (P : json -> Prop) (l : list json) : all_or_null P l -> exists x, In x l /\ P x.
Proof. intros [_ H]. exact H. Qed.
Lemma sent_array (g : json -> Prop) (as' : list InferModel.any_value) js :
  read_as (InferModel.AnyArray as') (Some (JArr js)) ->
  (forall a j, In a as' -> read_as a (Some j) -> g j) -> forall j, In j js -> g j.
Proof.
  intros H Hg. inversion H as [| | | | | | |l ks HL]; subst. clear H. revert Hg. 
  induction HL as [|a l js H1 H2 IH|a j l js H1 H2 IH]; intros Hg k Hk.
  - destruct Hk.
  - apply IH; [|exact Hk]. intros a' j' Ha'. apply Hg. right. exact Ha'.
  - destruct Hk as [<-|Hk]; [apply (Hg a); [left; reflexivity|exact H1]|].
    apply IH; [|exact Hk]. intros a' j' Ha'. apply Hg. right. exact Ha'.
Qed.
Lemma array_type (g : json -> Prop) js t : has_type (JArr js) t -> (forall j, In j js -> g j) ->
  ((forall j, g j -> elem_bool j) -> t = PBooleans) /\ ((forall j, g j -> elem_int j) -> t = PInts) /\
  ((forall j, g j -> j = JNull \/ exists d, j = JNum (NFloat d)) -> t = PDoubles) /\
  ((forall j, g j -> elem_str j) -> t = PStrings).
Proof.
  intros H Hg.
  assert (X : forall P Q : json -> Prop, (exists x, In x js /\ P x) -> (forall j, g j -> Q j) -> exists x, P x /\ Q x).
  { intros P Q (x & Hx & Hp) HQ. exists x. auto. }
  inversion H as [| | | |l HL|l HL|l HL HD|l HL]; subst.
  all: apply not_null_elem in HL as HE.
  all: repeat split; try reflexivity; intros HQ.
  all: try (destruct (X _ _ HE HQ) as (x & (y & ->) & [E|(z & E)]); discriminate).
  all: try (destruct (X _ _ HE HQ) as (x & (y & ->) & (z & E)); try discriminate).
  destruct HD as (d & Hd). destruct (HQ _ (Hg _ Hd)) as (z' & E'). discriminate.
Qed.
Lemma conforms_read p v a t x : value_has p v -> sent_value v a -> read_as a x -> (exists j, x = Some j /\ has_type j t) ->
  p = PAny \/ t = p.
Proof.
  intros Hv Hs Hr (j & -> & Ht). destruct Hv; cbn [sent_value] in Hs; [..|auto]; right.
  - subst. inversion Hr; subst. inversion Ht; reflexivity.
  - subst. inversion Hr; subst. inversion Ht; reflexivity.
  - subst. inversion Hr; subst; inversion Ht; reflexivity.
  - subst. inversion Hr; subst. inversion Ht; reflexivity.
  - destruct Hs as (l' & -> & HF). inversion Hr as [| | | | | | |l0 js HL]; subst.
    refine (proj1 (array_type elem_bool js t Ht _) (fun _ h => h)).
    apply (sent_array elem_bool l' js Hr). intros a k Ha Hk. clear - HF Ha Hk. induction HF as [|x y l l' -> HF IH]; [destruct Ha|].
    destruct Ha as [<-|Ha]; [inversion Hk; eexists; reflexivity|auto].
  - destruct Hs as (l' & -> & HF). inversion Hr as [| | | | | | |l0 js HL]; subst.
    refine (proj1 (proj2 (array_type elem_int js t Ht _)) (fun _ h => h)).
    apply (sent_array elem_int l' js Hr). intros a k Ha Hk. clear - HF Ha Hk. induction HF as [|x y l l' -> HF IH]; [destruct Ha|].
    destruct Ha as [<-|Ha]; [inversion Hk; eexists; reflexivity|auto].
  - destruct Hs as (l' & -> & HF). inversion Hr as [| | | | | | |l0 js HL]; subst.
    refine (proj1 (proj2 (proj2 (array_type (fun j => j = JNull \/ exists d, j = JNum (NFloat d)) js t Ht _))) (fun _ h => h)).
    apply (sent_array (fun j => j = JNull \/ exists d, j = JNum (NFloat d)) l' js Hr). intros a k Ha Hk. clear - HF Ha Hk. induction HF as [|x y l l' -> HF IH]; [destruct Ha|].
    destruct Ha as [<-|Ha]; [inversion Hk; eauto|auto].
  - destruct Hs as (l' & -> & HF). inversion Hr as [| | | | | | |l0 js HL]; subst.
    refine (proj2 (proj2 (proj2 (array_type elem_str js t Ht _))) (fun _ h => h)).
    apply (sent_array elem_str l' js Hr). intros a k Ha Hk. clear - HF Ha Hk. induction HF as [|x y l l' -> HF IH]; [destruct Ha|].
    destruct Ha as [<-|Ha]; [inversion Hk; eexists; reflexivity|auto].
Qed.

(* ---------- attributes ---------- *)
Lemma prefix_app n s : prefix_of n (n ++ s).
Proof. exists s. reflexivity. Qed.
Lemma lookup_emitted r show n t kv : coherent r -> used r n t -> attr_emitted n t kv ->
  let c := checker_new (live_view r) (default_advisors show) None in
  exists va, lookup_attr c (fst kv) = Some va /\ vattr_type va = t /\
    (find_attribute c (fst kv) = None -> find_template c (fst kv) <> None).
Proof.
  intros HC HU (Hk & _) c. rewrite Hk. unfold lookup_attr.
  pose proof (find_attribute_spec (live_view r) (default_advisors show) None (if is_template t then n ++ ".key" else n)) as HA.
  pose proof (find_template_spec (live_view r) (default_advisors show) None (if is_template t then n ++ ".key" else n)) as HT.
  fold c in HA, HT. destruct (co_defined r HC n t HU) as (d & Hd & Hn & Ht).
  destruct (is_template t) eqn:T.
  - destruct t as [p|p|ms]; try discriminate T.
    destruct (find_attribute c (n ++ ".key")) as [a|].
    + destruct HA as (pre & post & E & Ha & Hf & _). exfalso.
      apply (proj1 (co_free r HC n p a HU ltac:(rewrite E; apply in_app_iff; right; left; reflexivity)) Hf). exact Ha.
    + destruct (find_template c (n ++ ".key")) as [a|].
      * destruct HT as (Hp & Hf & Hl & (pre & post & E & _)). exists a. split; [reflexivity|]. split; [|discriminate].
        apply (proj2 (co_free r HC n p a HU ltac:(rewrite E; apply in_app_iff; right; left; reflexivity)) Hf Hp).
        rewrite <- Hn. apply Hl; [exact Hd|rewrite Ht; reflexivity|rewrite Hn; apply prefix_app].
      * exfalso. apply (HT d Hd); [rewrite Ht; reflexivity|rewrite Hn; apply prefix_app].
  - destruct (find_attribute c n) as [a|].
    + destruct HA as (pre & post & E & Ha & Hf & _). exists a. split; [reflexivity|]. split; [|discriminate].
      apply (co_agree r HC n t a HU); [|exact Ha]. rewrite E. apply in_app_iff. right; left; reflexivity.
    + exfalso. apply (HA d Hd); [rewrite Ht; exact T|exact Hn].
Qed.
Lemma enum_other show a sig va g fs : (forall ms, vattr_type va <> TEnum ms) ->
  enum_advisor show (RfAttribute a) sig (Some va) g = Ok fs -> fs = [].
Proof.
  intros N E. unfold enum_advisor in E. injection E as <-. destruct (sa_value a); [|reflexivity]. destruct (sa_type a); [|reflexivity].
  destruct (vattr_type va) as [q|q|ms]; try reflexivity. exfalso. apply (N ms). reflexivity.
Qed.
Lemma attr_fine r show n t kv g sig st a' st' : coherent r -> used r n t -> attr_emitted n t kv ->
  run_attr (checker_new (live_view r) (default_advisors show) None) g sig (attr_sample kv) st = Ok (a', st') ->
  exists l, sa_result a' = Some l /\ fine (all_advice l).
Proof.
  intros HC HU HE HR. destruct (run_attr_report _ _ _ _ _ _ _ _ HR) as (l & pre & fss & El & HF & Ea & HP).
  exists l. split; [exact El|]. rewrite Ea.
  destruct (lookup_emitted r show n t kv HC HU HE) as (va & Hl & Ht & HN).
  change (sa_name (attr_sample kv)) with (fst kv) in HF, HP.
  apply fine_app.
  - destruct (find_attribute _ _); [subst; apply fine_nil|]. destruct (find_template _ _); [|exfalso; apply HN; reflexivity].
    destruct HP as (f & -> & Hf & _). apply fine_one. rewrite Hf. cbn. auto.
  - rewrite Hl in HF. apply (advisors_fine show _ _ _ _ _ HF).
    + intros fs E. destruct (sa_type (attr_sample kv)) as [ty|] eqn:Et.
      * destruct (attr_type_spec (attr_sample kv) sig va g ty Et) as (fs' & E' & Hacc & _).
        assert (fs = fs') as -> by congruence. rewrite Hacc; [apply fine_nil|]. rewrite Ht. clear Ht Hacc E E'.
        destruct HE as (_ & v & Hv & Hs). pose proof (attr_sent kv) as (_ & Hread & _ & Hty).
        apply Hty in Et as (j & Ej & Hj). inversion Hv as [p v' Hp|p' v' Hp|m ms v' Hm]; subst.
        -- destruct (conforms_read p v (snd kv) ty _ Hp Hs Hread (ex_intro _ j (conj Ej Hj))) as [->| ->]; constructor.
        -- destruct (conforms_read p' v (snd kv) ty _ Hp Hs Hread (ex_intro _ j (conj Ej Hj))) as [->| ->]; constructor.
        -- destruct (co_enum r HC n (m :: ms) HU) as (m' & rest & Em & HV). injection Em as -> ->.
           rewrite Ej in Hread.
           destruct HV as [(s & Es)|(z & Ez & _)]; [rewrite Es in Hm|rewrite Ez in Hm]; cbn in Hm; subst v; cbn in Hs; rewrite Hs in Hread;
             inversion Hread; subst; inversion Hj; constructor.
      * rewrite (attr_type_unknown (attr_sample kv) sig (Some va) g (or_intror Et)) in E. injection E as <-. apply fine_nil.
    + intros fs E. destruct t as [p|p|ms].
      * rewrite (enum_other show _ _ _ _ _ ltac:(rewrite Ht; discriminate) E). apply fine_nil.
      * rewrite (enum_other show _ _ _ _ _ ltac:(rewrite Ht; discriminate) E). apply fine_nil.
      * destruct HE as (_ & v & Hv & Hs). pose proof (attr_sent kv) as (_ & Hread & _ & Hty).
        destruct (co_enum r HC n ms HU) as (m & rest & -> & HV). inversion Hv as [| |m' ms' v' Hm]; subst.
        assert (X : exists w ty, sa_value (attr_sample kv) = Some w /\ sa_type (attr_sample kv) = Some ty /\ is_member (m :: rest) w /\
          (ty = PInt /\ (exists z, w = JNum (NInt z) /\ (- 2 ^ 63 <= z < 2 ^ 63)%Z) \/ ty = PString /\ exists s, w = JStr s)).
        { destruct HV as [(s & Es)|(z & Ez & Hz)].
          - rewrite Es in Hm. cbn in Hm. subst v. cbn in Hs. exists (JStr s), PString.
            assert (V : sa_value (attr_sample kv) = Some (JStr s)) by (change (sa_value (attr_sample kv)) with (InferModel.maybe_to_json (snd kv)); rewrite Hs; reflexivity).
            split; [exact V|]. split; [apply Hty; eexists; split; [exact V|constructor]|]. split; [|right; split; [reflexivity|eauto]].
            exists m. split; [left; reflexivity|]. rewrite Es. reflexivity.
          - rewrite Ez in Hm. cbn in Hm. subst v. cbn in Hs. exists (JNum (NInt z)), PInt.
            assert (V : sa_value (attr_sample kv) = Some (JNum (NInt z))) by (change (sa_value (attr_sample kv)) with (InferModel.maybe_to_json (snd kv)); rewrite Hs; reflexivity).
            split; [exact V|]. split; [apply Hty; eexists; split; [exact V|constructor]|].
            split; [|left; split; [reflexivity|]; exists z; split; [reflexivity|exact Hz]].
            exists m. split; [left; reflexivity|]. rewrite Ez. reflexivity. }
        destruct X as (w & ty & Vw & Vt & Hmem & Hk).
        destruct (enum_spec show (attr_sample kv) sig va g (m :: rest) w ty Ht Vw Vt Hk) as (fs' & E' & H1 & _).
        assert (fs = fs') as -> by congruence. rewrite (H1 Hmem). apply fine_nil.
Qed.

(* ---------- lists ---------- *)
Lemma run_list_each {T} (run : T -> lstats -> res (T * lstats)) : forall l st l' st', run_list run l st = Ok (l', st') ->
  forall x', In x' l' -> exists x s s', In x l /\ run x s = Ok (x', s').
Proof.
  induction l as [|x t IH]; intros st l' st' H x' Hx; cbn [run_list] in H.
  - injection H as <- _. destruct Hx.
  - step H. step H. injection H as <- _. destruct Hx as [<-|Hx].
    + exists x. do 2 eexists. split; [left; reflexivity|exact E].
    + destruct (IH _ _ _ E0 x' Hx) as (y & s & s' & Hy & Hr). exists y, s, s'. split; [right; exact Hy|exact Hr].
Qed.
Lemma run_all_each c : forall l cur st out st', run_all c cur l st = Ok (out, st') ->
  forall o, In o out -> exists i r s s', In i l /\ run_sample c (attach r i) s = Ok (o, s').
Proof.
  induction l as [|x t IH]; intros cur st out st' H o Ho; cbn [run_all] in H.
  - injection H as <- _. destruct Ho.
  - step H. step H. injection H as <- _. destruct Ho as [<-|Ho].
    + exists x, (next_resource cur x). do 2 eexists. split; [left; reflexivity|exact E].
    + destruct (IH _ _ _ _ E0 o Ho) as (y & r & s1 & s2 & Hy & Hr). exists y, r, s1, s2. split; [right; exact Hy|exact Hr].
Qed.
Lemma run_all_every c : forall l cur st out st', run_all c cur l st = Ok (out, st') ->
  forall i, In i l -> exists o r s s', In o out /\ run_sample c (attach r i) s = Ok (o, s').
Proof.
  induction l as [|x t IH]; intros cur st out st' H i Hi; cbn [run_all] in H; [destruct Hi|].
  step H. step H. injection H as <- _. destruct Hi as [<-|Hi].
  - exists s, (next_resource cur x). do 2 eexists. split; [left; reflexivity|exact E].
  - destruct (IH _ _ _ _ E0 i Hi) as (y & r & s1 & s2 & Hy & Hr). exists y, r, s1, s2. split; [right; exact Hy|exact Hr].
Qed.
Lemma live_run c ns f input out st code : live_check c ns f input = Ok (out, st, code) ->
  exists s0 s1, run_all c None input s0 = Ok (out, s1).
Proof.
  unfold live_check, rbind. match goal with |- context [run_all c None input ?s] => destruct (run_all c None input s) as [[o s']|] eqn:E end; [|discriminate].
  intros H. injection H as <- _ _. do 2 eexists. exact E.
Qed.

(* ---------- the samples of messages ---------- *)
Lemma sent_items {A} (f : option sresource -> A -> sample) bs s : In s (flat_map (sent_samples f) bs) ->
  (exists x, s = SmpResource x) \/ (exists x, s = SmpScope x) \/ exists m r, In m (items_of bs) /\ s = f r m.
Proof.
  intros H. apply in_flat_map in H as (b & Hb & H). unfold sent_samples in H. apply in_app_iff in H as [H|H].
  - left. apply in_map_iff in H as (x & <- & _). eexists; reflexivity.
  - apply in_flat_map in H as (sc & Hsc & H). apply in_app_iff in H as [H|H].
    + right; left. apply in_map_iff in H as (x & <- & _). eexists; reflexivity.
    + right; right. apply in_map_iff in H as (m & <- & Hm). exists m. eexists. split; [|reflexivity].
      apply in_flat_map. exists b. split; [exact Hb|]. apply in_flat_map. exists sc. auto.
Qed.
Lemma items_sent {A} (f : option sresource -> A -> sample) bs m : In m (items_of bs) -> exists r, In (f r m) (flat_map (sent_samples f) bs).
Proof.
  intros H. apply in_flat_map in H as (b & Hb & H). apply in_flat_map in H as (sc & Hsc & H).
  exists (resource_sample (se_resource b)). apply in_flat_map. exists b. split; [exact Hb|]. unfold sent_samples. apply in_app_iff. right.
  apply in_flat_map. exists sc. split; [exact Hsc|]. apply in_app_iff. right. apply in_map. exact H.
Qed.
Lemma ingest_in msgs s : In s (ingest msgs) -> exists m l, In m msgs /\ fill_buffer m = Some l /\ In s l.
Proof.
  induction msgs as [|m t IH]; cbn [ingest]; [intros []|]. destruct (fill_buffer m) as [l|] eqn:E; [|intros []].
  intros H. apply in_app_iff in H as [H|H]; [exists m, l; cbn; auto|]. destruct (IH H) as (m' & l' & ? & ? & ?). exists m', l'. cbn; auto.
Qed.
Lemma in_ingest msgs s m l : ~ In OStop msgs -> ~ In OError msgs -> In m msgs -> fill_buffer m = Some l -> In s l -> In s (ingest msgs).
Proof.
  intros N1 N2 Hm Hl Hs. induction msgs as [|x t IH]; [destruct Hm|]. cbn [ingest].
  assert (X : exists lx, fill_buffer x = Some lx).
  { destruct x; cbn; try (eexists; reflexivity); exfalso; [apply N1|apply N2]; left; reflexivity. }
  destruct X as (lx & Ex). rewrite Ex. apply in_app_iff. destruct Hm as [->|Hm].
  - left. congruence.
  - right. apply IH; [intros C; apply N1; right; exact C|intros C; apply N2; right; exact C|exact Hm].
Qed.

(* ---------- lists of attributes ---------- *)
Definition emitted_by (r : eregistry) (kv : key_value) : Prop := exists n t, used r n t /\ attr_emitted n t kv.
Lemma emitted_attr l kvs kv : attrs_emitted l kvs -> In kv kvs -> exists n t, In (n, t) l /\ attr_emitted n t kv.
Proof.
  intros H Hk. induction H as [|[n t] y l1 l2 H1 H2 IH]; [destruct Hk|]. destruct Hk as [->|Hk].
  - exists n, t. split; [left; reflexivity|exact H1].
  - destruct (IH Hk) as (n' & t' & ? & ?). exists n', t'. split; [right|]; assumption.
Qed.
Lemma attr_has l kvs n t : attrs_emitted l kvs -> In (n, t) l -> exists kv, In kv kvs /\ attr_emitted n t kv.
Proof.
  intros H Hk. induction H as [|x y l1 l2 H1 H2 IH]; [destruct Hk|]. destruct Hk as [->|Hk].
  - exists y. split; [left; reflexivity|exact H1].
  - destruct (IH Hk) as (kv & ? & ?). exists kv. split; [right|]; assumption.
Qed.
Section Round.
  Context (r : eregistry) (show : json_text) (HC : coherent r).
  Let c := checker_new (live_view r) (default_advisors show) None.
  Definition fine_entities (es : list entity) : Prop := forall e, In e es -> fine (advice_of e).
  Lemma fe_app a b : fine_entities a -> fine_entities b -> fine_entities (app a b).
  Proof. intros Ha Hb e H. apply in_app_iff in H as [H|H]; auto. Qed.
  Lemma fe_one e : fine (advice_of e) -> fine_entities [e].
  Proof. intros H x [<-|[]]. exact H. Qed.
  Lemma fe_cons e l : fine (advice_of e) -> fine_entities l -> fine_entities (e :: l).
  Proof. intros H Hl x [<-|Hx]; auto. Qed.

  Lemma attrs_fine g sig kvs st l st' : (forall kv, In kv kvs -> emitted_by r kv) ->
    run_attrs c g sig (map attr_sample kvs) st = Ok (l, st') -> fine_entities (ents_attrs l).
  Proof.
    intros HE H e He. apply in_flat_map in He as (a' & Ha & [<-|[]]).
    destruct (run_list_each _ _ _ _ _ H a' Ha) as (a & s & s' & Hin & Hr). apply in_map_iff in Hin as (kv & <- & Hkv).
    destruct (HE kv Hkv) as (n & t & HU & HA). destruct (attr_fine r show n t kv g sig s a' s' HC HU HA Hr) as (res & Er & Hf).
    unfold advice_of. cbn [e_result]. rewrite Er. exact Hf.
  Qed.
  Lemma plain_fine k rf g sig st l st' :
    (forall fs, type_advisor rf sig None g = Ok fs -> fine fs) -> (forall fs, enum_advisor show rf sig None g = Ok fs -> fine fs) ->
    run_advisors c k rf g sig st = Ok (l, st') -> fine (all_advice l).
  Proof.
    intros Ht He H. unfold run_advisors, rbind in H.
    destruct (run_advisor_list _ _ _ _ _ _ _) as [l'|] eqn:E; [|discriminate]. injection H as <- _.
    apply run_advisor_list_none in E as (fss & HF & Ea). rewrite Ea. cbn [all_advice lcr_new app].
    exact (advisors_fine show _ _ _ _ _ HF Ht He).
  Qed.
  Lemma enum_none rf sig g fs : enum_advisor show rf sig None g = Ok fs -> fine fs.
  Proof. intros E. unfold enum_advisor in E. injection E as <-. destruct rf; apply fine_nil. Qed.

  (* a span *)
  Lemma span_fine n k attrs kvs s cur st o st' : span_emitted r n k attrs -> attrs_emitted attrs kvs -> span_carried (EmSpan n k kvs) s ->
    forall res, run_sample c (attach cur (span_sample res s)) st = Ok (o, st') -> fine_entities (entities o).
  Proof.
    intros HS HA (n' & k' & kvs' & E & En & Hi & Hev & Hli) res H. injection E as <- <- <-.
    cbn [attach span_sample run_sample] in H. unfold rmap in H. step H. injection H as <- <-.
    unfold run_span in E. step E. step E. step E. step E. injection E as <- <-. cbn [sp_attrs sp_events sp_links] in *.
    rewrite Hev in E2. cbn in E2. injection E2 as <- _. rewrite Hli in E3. cbn in E3. injection E3 as <- _.
    cbn [entities]. unfold ents_span. cbn [sp_result sp_attrs sp_events sp_links flat_map]. apply fe_cons; [|apply fe_app; [|intros e []]].
    - unfold advice_of, plain. cbn [e_result].
      refine (plain_fine _ _ _ _ _ _ _ _ _ E0); [|apply enum_none]. intros fs F. injection F as <-. apply fine_nil.
    - refine (attrs_fine _ _ _ _ _ _ _ E1). intros kv Hkv. destruct (emitted_attr _ _ kv HA (Hi kv Hkv)) as (a & t & Hat & Hem).
      exists a, t. split; [|exact Hem]. exists attrs. split; [exact Hat|]. left. eauto.
  Qed.

  (* what the attributes of a signal need is there *)
  Lemma rules_carried s attrs kvs sent : 
    (forall k q tm, In (k, q, tm) (attr_rules s) -> exists t, In (k, t) attrs /\ is_template t = tm) ->
    attrs_emitted attrs kvs -> carried kvs sent ->
    forall k, In k (attr_rules s) -> carries (map attr_sample sent) (fst (fst k)) (snd k).
  Proof.
    intros HR HA [_ HK] [[k q] tm] Hk. cbn [fst snd]. destruct (HR k q tm Hk) as (t & Ht & <-).
    destruct (attr_has _ _ _ _ HA Ht) as (kv & Hkv & (Ek & _)).
    destruct (proj1 (in_map_iff fst sent (fst kv)) (HK (fst kv) (in_map fst kvs kv Hkv))) as (kv' & E' & Hin).
    exists (attr_sample kv'). split; [apply in_map; exact Hin|]. change (sa_name (attr_sample kv')) with (fst kv'). rewrite E', Ek.
    destruct (is_template t); [apply prefix_app|reflexivity].
  Qed.
  Lemma presence_fine rf s sig ra sattrs fs : presence_checked rf s = Some sattrs ->
    (forall k, In k (attr_rules s) -> carries sattrs (fst (fst k)) (snd k)) -> type_advisor rf sig ra (Some s) = Ok fs -> fs = [].
  Proof.
    intros HP HR E. destruct (c07_exact rf s sig ra sattrs HP) as (fs' & missing & E' & HF & keep & -> & HK).
    assert (fs = fs') as -> by congruence.
    assert (X : filter keep (attr_rules s) = []).
    { destruct (filter keep (attr_rules s)) as [|k t] eqn:F; [reflexivity|]. exfalso.
      assert (Hk : In k (filter keep (attr_rules s))) by (rewrite F; left; reflexivity).
      apply filter_In in Hk as [H1 H2]. apply HK in H2. apply H2, HR, H1. }
    rewrite X in HF. inversion HF. reflexivity.
  Qed.

  (* the definition that a live check finds is the one that was emitted *)
  Lemma metric_defined s i n u d attrs : metric_emitted r s i n u d attrs -> defines_metric (live_view r) n s.
  Proof.
    destruct r as [gs|r2] eqn:Er; cbn [metric_emitted live_view].
    - intros (g & Hg & Ht & Hi & Hn & _ & _ & _ & ->). cbn. split; [apply in_map; exact Hg|]. split; [exact Ht|].
      destruct Hn as [Hn|[Hn _]]; [exact Hn|]. exfalso. apply (proj1 (proj1 (co_named _ HC g Hg) Ht)). exact Hn.
    - intros (m & Hm & -> & -> & -> & _ & _ & ->). cbn. split; [apply in_map; exact Hm|reflexivity].
  Qed.
  Lemma defined_metric n s : defines_metric (live_view r) n s -> exists i u d attrs, metric_emitted r s i n u d attrs.
  Proof.
    destruct r as [gs|r2] eqn:Er; cbn [live_view]; destruct s as [g|m|e]; cbn [defines_metric]; try (intros []; fail).
    - intros (Hg & Ht & Hn). apply in_map_iff in Hg as (eg & <- & Hg).
      destruct (vg_instrument (eg_group eg)) as [i|] eqn:Ei; [|exfalso; apply (proj2 (proj1 (co_named _ HC eg Hg) Ht)); exact Ei].
      exists i, (opt_get (vg_unit (eg_group eg)) ""), (eg_brief eg), (attrs1 (vg_attributes (eg_group eg))).
      exists eg. split; [exact Hg|]. split; [exact Ht|]. split; [exact Ei|]. split; [left; exact Hn|].
      split; [apply opt_get_empty; reflexivity|]. repeat split.
    - intros (Hm & <-). cbn in Hm. apply in_map_iff in Hm as (em & <- & Hm). do 4 eexists. exists em. repeat split. exact Hm.
  Qed.
  Lemma metric_found s i n u d attrs : metric_emitted r s i n u d attrs -> find_metric c n = Some s.
  Proof.
    intros HM. pose proof (proj1 (signal_lookup_spec (live_view r) (default_advisors show) None n)) as HL. cbv zeta in HL. fold c in HL.
    destruct (find_metric c n) as [s'|].
    - destruct (defined_metric _ _ HL) as (i' & u' & d' & a' & HM'). f_equal. exact (co_metric _ HC _ _ _ _ _ _ _ _ _ _ _ HM' HM).
    - exfalso. exact (HL s (metric_defined _ _ _ _ _ _ HM)).
  Qed.
  Lemma event_defined s n attrs : event_emitted r s n attrs -> defines_event (live_view r) n s.
  Proof.
    destruct r as [gs|r2] eqn:Er; cbn [event_emitted live_view].
    - intros (g & Hg & Ht & Hn & _ & ->). cbn. split; [apply in_map; exact Hg|]. split; [exact Ht|].
      destruct Hn as [Hn|[Hn _]]; [exact Hn|]. exfalso. apply (proj2 (co_named _ HC g Hg) Ht). exact Hn.
    - intros (m & Hm & -> & _ & ->). cbn. split; [apply in_map; exact Hm|reflexivity].
  Qed.
  Lemma defined_event n s : defines_event (live_view r) n s -> exists attrs, event_emitted r s n attrs.
  Proof.
    destruct r as [gs|r2] eqn:Er; cbn [live_view]; destruct s as [g|m|e]; cbn [defines_event]; try (intros []; fail).
    - intros (Hg & Ht & Hn). apply in_map_iff in Hg as (eg & <- & Hg). eexists. exists eg. split; [exact Hg|]. split; [exact Ht|].
      split; [left; exact Hn|]. repeat split.
    - intros (Hm & <-). cbn in Hm. apply in_map_iff in Hm as (em & <- & Hm). eexists. exists em. repeat split. exact Hm.
  Qed.
  Lemma event_found s n attrs : event_emitted r s n attrs -> find_event c n = Some s.
  Proof.
    intros HM. pose proof (proj1 (proj2 (signal_lookup_spec (live_view r) (default_advisors show) None n))) as HL. cbv zeta in HL. fold c in HL.
    destruct (find_event c n) as [s'|].
    - destruct (defined_event _ _ HL) as (a' & HM'). f_equal. exact (co_event _ HC _ _ _ _ _ HM' HM).
    - exfalso. exact (HL s (event_defined _ _ _ HM)).
  Qed.
  Lemma metric_facts s i n u d attrs : metric_emitted r s i n u d attrs ->
    vsig_instrument s = Some i /\ (vsig_unit s = Some u \/ vsig_unit s = None) /\
    (forall k q tm, In (k, q, tm) (attr_rules s) -> exists t, In (k, t) attrs /\ is_template t = tm) /\
    (forall p, presence_checked (RfNumberDP p) s = Some (dp_attrs p)) /\ (forall p, presence_checked (RfHistogramDP p) s = Some (dp_attrs p)).
  Proof.
    destruct r as [gs|r2]; cbn [metric_emitted].
    - intros (g & _ & _ & Hi & _ & Hu & _ & -> & ->). cbn [vsig_instrument vsig_unit attr_rules presence_checked]. split; [exact Hi|].
      split; [destruct Hu as [Hu|[Hu _]]; auto|]. split; [|auto].
      intros k q tm H. apply in_map_iff in H as (a & E & Ha). injection E as <- <- <-. exists (at_type a). split; [|reflexivity].
      apply in_map_iff. exists a. auto.
    - intros (m & _ & -> & _ & -> & _ & -> & ->). cbn [vsig_instrument vsig_unit attr_rules presence_checked metric_view vm_instrument vm_unit vm_attributes].
      split; [reflexivity|]. split; [auto|]. split; [|auto].
      intros k q tm H. rewrite map_map in H. apply in_map_iff in H as (a & E & Ha). injection E as <- <- <-. exists (va_type (ea_base a)).
      split; [|reflexivity]. apply in_map_iff. exists a. auto.
  Qed.
  Lemma event_facts s n attrs : event_emitted r s n attrs ->
    (forall k q tm, In (k, q, tm) (attr_rules s) -> exists t, In (k, t) attrs /\ is_template t = tm) /\
    (forall p, presence_checked (RfLog p) s = Some (lg_attrs p)).
  Proof.
    destruct r as [gs|r2]; cbn [event_emitted].
    - intros (g & _ & _ & _ & -> & ->). cbn [attr_rules presence_checked]. split; [|auto].
      intros k q tm H. apply in_map_iff in H as (a & E & Ha). injection E as <- <- <-. exists (at_type a). split; [|reflexivity].
      apply in_map_iff. exists a. auto.
    - intros (m & _ & _ & -> & ->). cbn [attr_rules presence_checked event_view ve_attributes]. split; [|auto].
      intros k q tm H. rewrite map_map in H. apply in_map_iff in H as (a & E & Ha). injection E as <- <- <-. exists (va_type (ea_base a)).
      split; [|reflexivity]. apply in_map_iff. exists a. auto.
  Qed.

  (* data points *)
  Lemma point_fine (mk : dpoint -> sref) s i n u d attrs kvs p g sig st p' st' :
    (mk = RfNumberDP \/ mk = RfHistogramDP) -> g = Some s ->
    metric_emitted r s i n u d attrs -> attrs_emitted attrs kvs -> carried kvs (op_attrs p) -> op_exemplars p = [] ->
    run_dpoint c mk g sig (point_sample p) st = Ok (p', st') -> fine_entities (ents_dpoint p').
  Proof.
    intros Hmk -> HM HA HK HX H. unfold run_dpoint in H. step H. step H. step H. injection H as <- <-.
    cbn [dp_attrs dp_exemplars point_sample] in *. rewrite HX in E1. cbn in E1. injection E1 as <- _.
    unfold ents_dpoint. cbn [dp_result dp_attrs dp_exemplars flat_map]. apply fe_cons; [|apply fe_app; [|intros e []]].
    - unfold advice_of, plain. cbn [e_result].
      refine (plain_fine _ _ _ _ _ _ _ _ _ E); [|apply enum_none]. intros fs F.
      destruct (metric_facts _ _ _ _ _ _ HM) as (_ & _ & HR & P1 & P2).
      assert (P : presence_checked (mk (point_sample p)) s = Some (map attr_sample (op_attrs p))).
      { destruct Hmk as [-> | ->]; [rewrite P1|rewrite P2]; reflexivity. }
      rewrite (presence_fine _ _ _ _ _ _ P (rules_carried s attrs kvs (op_attrs p) HR HA HK) F). apply fine_nil.
    - refine (attrs_fine _ _ _ _ _ _ _ E0). intros kv Hkv. destruct (emitted_attr _ _ kv HA (proj1 HK kv Hkv)) as (a & t & Hat & Hem).
      exists a, t. split; [|exact Hem]. exists attrs. split; [exact Hat|]. right; left. do 5 eexists. exact HM.
  Qed.
  Lemma metric_fine s i n u d attrs kvs m cur st o st' : metric_emitted r s i n u d attrs -> attrs_emitted attrs kvs ->
    metric_carried (EmMetric i n u d kvs) m ->
    forall res, run_sample c (attach cur (metric_sample res m)) st = Ok (o, st') -> fine_entities (entities o).
  Proof.
    intros HM HA (i' & n' & u' & d' & kvs' & points & E & En & Eu & HD & HP) res H. injection E as <- <- <- <- <-.
    cbn [attach metric_sample run_sample] in H. unfold rmap in H. step H. injection H as <- <-.
    pose proof (metric_found _ _ _ _ _ _ HM) as HF. destruct (metric_facts _ _ _ _ _ _ HM) as (Vi & Vu & _).
    cbn [entities]. unfold ents_metric. apply fe_app.
    - unfold run_metric in E. cbn [sm_name sm_points] in E. rewrite En, HF in E.
      match type of E with context [rbind ?e _] => destruct e as [l1|]; [cbn [rbind] in E|discriminate E] end.
      step E. injection E as <- <-. cbn [sm_points].
      destruct i; cbn [data_of] in HD; rewrite HD in E0; cbn [data_points_of] in E0; step E0; injection E0 as <- <-; cbn [ents_points];
        intros e He; apply in_flat_map in He as (p' & Hp' & He); destruct (run_list_each _ _ _ _ _ E p' Hp') as (p & s1 & s2 & Hp & Hr);
        apply in_map_iff in Hp as (q & <- & Hq); destruct (HP q Hq) as [K1 K2];
        (refine (point_fine _ _ _ _ _ _ _ _ _ _ _ _ _ _ _ eq_refl HM HA K1 K2 Hr e He); [left; reflexivity] || refine (point_fine _ _ _ _ _ _ _ _ _ _ _ _ _ _ _ eq_refl HM HA K1 K2 Hr e He); right; reflexivity).
    - apply fe_one. unfold advice_of. cbn [e_result].
      destruct (run_metric_report c _ _ _ _ _ eq_refl E) as (lr & pre & fss & El & HFa & Ea & Hpre). rewrite El, Ea.
      cbn [sm_name] in HFa, Hpre |- *. rewrite En, HF in *. subst pre. cbn [app]. apply fine_app; [|apply signal_assoc_fine].
      refine (advisors_fine show _ _ _ _ _ HFa _ (enum_none _ _ _)). intros fs F.
      match type of F with type_advisor (RfMetric ?m) ?sg _ _ = _ => destruct (metric_type_spec m sg None s) as (fi & fu & E1 & Fi & _ & Fu & _) end.
      assert (fs = app fi fu) as -> by congruence. 
      rewrite (proj2 Fi), (proj2 Fu); [apply fine_nil| |].
      + cbn [sm_unit]. rewrite Eu. exact Vu.
      + exists i. split; [|left; exact Vi]. cbn [sm_instrument]. destruct i; cbn [data_of] in HD; rewrite HD; reflexivity.
  Qed.
  Lemma log_fine s n attrs kvs m cur st o st' : event_emitted r s n attrs -> attrs_emitted attrs kvs ->
    log_carried (EmLog n kvs) m ->
    forall res, run_sample c (attach cur (log_sample res m)) st = Ok (o, st') -> fine_entities (entities o).
  Proof.
    intros HM HA (n' & kvs' & E & En & HK) res H. injection E as <- <-.
    cbn [attach log_sample run_sample] in H. unfold rmap in H. step H. injection H as <- <-.
    pose proof (event_found _ _ _ HM) as HF. destruct (event_facts _ _ _ HM) as (HR & HP).
    cbn [entities]. unfold ents_log. apply fe_app.
    - unfold run_log in E. destruct (if String.eqb _ _ then _ else _) as [df l0].
      match type of E with context [rbind ?e _] => destruct e as [l1|]; [cbn [rbind] in E|discriminate E] end.
      step E. injection E as <- <-. cbn [lg_attrs] in *. refine (attrs_fine _ _ _ _ _ _ _ E0).
      intros kv Hkv. destruct (emitted_attr _ _ kv HA (proj1 HK kv Hkv)) as (a & t & Hat & Hem).
      exists a, t. split; [|exact Hem]. exists attrs. split; [exact Hat|]. right; right. eauto.
    - apply fe_one. unfold advice_of. cbn [e_result].
      destruct (run_log_report c _ _ _ _ _ eq_refl E) as (lr & pre & fss & El & HFa & Ea & Hpre). rewrite El, Ea.
      cbn [lg_event] in HFa, Hpre |- *. rewrite En in *. rewrite HF in *.
      destruct (String.eqb n "").
      + subst pre. cbn [app]. apply fine_app; [|apply signal_assoc_fine].
        refine (advisors_fine show _ _ _ _ _ HFa _ (enum_none _ _ _)). intros fs F. injection F as <-. apply fine_nil.
      + subst pre. cbn [app]. apply fine_app; [|apply signal_assoc_fine].
        refine (advisors_fine show _ _ _ _ _ HFa _ (enum_none _ _ _)). intros fs F.
        match type of F with type_advisor (RfLog ?x) _ _ _ = _ =>
          rewrite (presence_fine _ _ _ _ _ _ (HP x) (rules_carried s attrs kvs (ol_attrs m) HR HA HK) F) end. apply fine_nil.
  Qed.
End Round.

Lemma run_span_name c s st o st' : run_sample c (SmpSpan s) st = Ok (o, st') -> exists x, o = SmpSpan x /\ sp_name x = sp_name s.
Proof.
  cbn [run_sample]. unfold rmap. intros H. step H. injection H as <- <-. unfold run_span in E. step E. step E. step E. step E.
  injection E as <- <-. eexists. split; reflexivity.
Qed.
Lemma run_kind c i r s o s' : run_sample c (attach r i) s = Ok (o, s') -> of_registry o ->
  match i with SmpSpan _ | SmpMetric _ | SmpLog _ => True | _ => False end.
Proof.
  intros H Ho. destruct i; try exact I; cbn [attach run_sample] in H; unfold rmap in H; step H; injection H as <- <-; destruct Ho.
Qed.

(* C81: a live check of the telemetry emitted for a coherent registry against this registry, however it was batched,
   finds nothing in the signals of the registry but what their definitions say of themselves and what their resource lacks *)
Theorem C81_round_trip_partial : forall r path l msgs show ns f out st code,
  coherent r -> emit r path = Ok l -> only_emitted l msgs ->
  live_check (checker_new (live_view r) (default_advisors show) None) ns f (ingest msgs) = Ok (out, st, code) ->
  forall o e x, In o out -> of_registry o -> In e (entities o) -> In x (advice_of e) -> In (f_id x) expected_ids.
Proof.
  intros r path l msgs show ns f out st code HC HE HO HL o e x Ho Hreg He Hx.
  destruct (live_run _ _ _ _ _ _ _ HL) as (s0 & s1 & HR). destruct (run_all_each _ _ _ _ _ _ HR o Ho) as (i & cur & t & t' & Hi & Hrun).
  pose proof (run_kind _ _ _ _ _ _ Hrun Hreg) as HK.
  destruct (ingest_in _ _ Hi) as (m & part & Hm & Hp & Hin). specialize (HO m Hm).
  destruct (C80_emitted r path l HE) as (HS & _).
  enough (G : fine_entities (entities o)) by exact (G e He x Hx).
  destruct m as [bs|bs|bs|d bs| |]; cbn [fill_buffer] in Hp; try discriminate; injection Hp as <-;
    destruct (sent_items _ _ _ Hin) as [(y & ->)|[(y & ->)|(m & res & Hmi & ->)]]; try (destruct HK; fail).
  - destruct (HO m Hmi) as (em & Hem & Hc). destruct (HS em Hem) as [->|[(n & k & kvs & attrs & -> & _)|[(s & i & n & u & d & kvs & attrs & -> & _)|(s & n & kvs & attrs & -> & H1 & H2)]]];
      try (destruct Hc as (? & ? & Hc & _); discriminate).
    exact (log_fine r show HC _ _ _ _ _ _ _ _ _ H1 H2 Hc _ Hrun).
  - destruct (HO m Hmi) as (em & Hem & Hc). destruct (HS em Hem) as [->|[(n & k & kvs & attrs & -> & _)|[(s & i & n & u & d & kvs & attrs & -> & H1 & H2)|(s & n & kvs & attrs & -> & _)]]];
      try (destruct Hc as (? & ? & ? & ? & ? & ? & Hc & _); discriminate).
    exact (metric_fine r show HC _ _ _ _ _ _ _ _ _ _ _ _ H1 H2 Hc _ Hrun).
  - destruct (HO m Hmi) as (em & Hem & Hc). destruct (HS em Hem) as [->|[(n & k & kvs & attrs & -> & H1 & H2)|[(s & i & n & u & d & kvs & attrs & -> & _)|(s & n & kvs & attrs & -> & _)]]];
      try (destruct Hc as (? & ? & ? & Hc & _); discriminate).
    + exfalso. destruct Hc as (n & k & kvs & E & En & _). injection E as <- <- <-.
      destruct (run_span_name _ _ _ _ _ Hrun) as (y & -> & Ey). cbn [of_registry] in Hreg. apply Hreg. rewrite Ey. exact En.
    + exact (span_fine r show HC _ _ _ _ _ _ _ _ _ H1 H2 Hc _ Hrun).
Qed.
Print Assumptions C81_round_trip_partial.

(* when all that was emitted is sent, each metric and each event that the registry defines is seen *)
Lemma run_metric_name c m st o st' : run_sample c (SmpMetric m) st = Ok (o, st') -> exists x, o = SmpMetric x /\ sm_name x = sm_name m.
Proof.
  cbn [run_sample]. unfold rmap. intros H. step H. injection H as <- <-. unfold run_metric in E.
  match type of E with context [rbind ?e _] => destruct e as [l1|]; [cbn [rbind] in E|discriminate E] end.
  step E. injection E as <- <-. eexists. split; reflexivity.
Qed.
Lemma run_log_name c m st o st' : run_sample c (SmpLog m) st = Ok (o, st') -> exists x, o = SmpLog x /\ lg_event x = lg_event m.
Proof.
  cbn [run_sample]. unfold rmap. intros H. step H. injection H as <- <-. unfold run_log in E.
  destruct (if String.eqb _ _ then _ else _) as [df l0].
  match type of E with context [rbind ?e _] => destruct e as [l1|]; [cbn [rbind] in E|discriminate E] end.
  step E. injection E as <- <-. eexists. split; reflexivity.
Qed.
Lemma in_somes {A} (l : list (option A)) x : In x (somes l) <-> In (Some x) l.
Proof.
  induction l as [|[y|] t IH]; cbn [somes]; [tauto| |].
  - cbn. rewrite IH. split; intros [H|H]; auto; left; congruence.
  - rewrite IH. cbn. split; [auto|]. intros [H|H]; [discriminate|exact H].
Qed.
Theorem C81_all_seen : forall r path l msgs c ns f out st code,
  emit r path = Ok l -> all_sent l msgs -> live_check c ns f (ingest msgs) = Ok (out, st, code) ->
  (forall s i n u d attrs, metric_emitted r s i n u d attrs -> In n (seen_metrics (flat_map entities out))) /\
  (forall s n attrs, event_emitted r s n attrs -> n <> "" -> In n (seen_events (flat_map entities out))).
Proof.
  intros r path l msgs c ns f out st code HE (N1 & N2 & HM & HL) HC. destruct (live_run _ _ _ _ _ _ _ HC) as (s0 & s1 & HR).
  destruct (C80_emitted r path l HE) as (_ & _ & EM & EL & _). split.
  - intros s i n u d attrs H. destruct (EM _ _ _ _ _ _ H) as (kvs & Hin & _). destruct (HM _ _ _ _ _ Hin) as (bs & m & Hbs & Hm & Hc).
    destruct Hc as (i' & n' & u' & d' & kvs' & pts & E & En & _). injection E as <- <- <- <- <-.
    destruct (items_sent metric_sample bs m Hm) as (res & Hs). pose proof (in_ingest msgs _ _ _ N1 N2 Hbs eq_refl Hs) as Hi.
    destruct (run_all_every _ _ _ _ _ _ HR _ Hi) as (o & cur & t & t' & Ho & Hrun).
    destruct (run_metric_name _ _ _ _ _ Hrun) as (x & -> & Ex). apply in_somes. apply in_map_iff. eexists. split; [|apply in_flat_map; eexists; split; [exact Ho|]; apply in_app_iff; right; left; reflexivity].
    cbn [e_metric]. f_equal. rewrite Ex. exact En.
  - intros s n attrs H Nn. destruct (EL _ _ _ H) as (kvs & Hin & _). destruct (HL _ _ Hin) as (bs & m & Hbs & Hm & Hc).
    destruct Hc as (n' & kvs' & E & En & _). injection E as <- <-.
    destruct (items_sent log_sample bs m Hm) as (res & Hs). pose proof (in_ingest msgs _ _ _ N1 N2 Hbs eq_refl Hs) as Hi.
    destruct (run_all_every _ _ _ _ _ _ HR _ Hi) as (o & cur & t & t' & Ho & Hrun).
    destruct (run_log_name _ _ _ _ _ Hrun) as (x & -> & Ex). apply in_somes. apply in_map_iff. eexists. split; [|apply in_flat_map; eexists; split; [exact Ho|]; apply in_app_iff; right; left; reflexivity].
    cbn [e_event]. rewrite Ex. cbn [lg_event]. rewrite En. destruct (String.eqb_spec n "") as [->|_]; [congruence|reflexivity].
Qed.
Print Assumptions C81_all_seen.

(* where the registry is not coherent, the check rejects the telemetry that was emitted for it *)
(* the key emitted for a template is that of an attribute of another type *)
Theorem C81_template_refuted : ids_of_check reg_template = Some ["type_mismatch"].
Proof. vm_compute. reflexivity. Qed.
Print Assumptions C81_template_refuted.
(* an enum whose members are booleans *)
Theorem C81_enum_refuted : ids_of_check reg_enum = Some ["type_mismatch"].
Proof. vm_compute. reflexivity. Qed.
Print Assumptions C81_enum_refuted.
(* an event without a name, which version 1 accepts with a prefix *)
Theorem C81_unnamed_refuted : ids_of_check reg_unnamed = Some ["missing_event"].
Proof. vm_compute. reflexivity. Qed.
Print Assumptions C81_unnamed_refuted.
(* an attribute of a dependency, used by a signal of a version 2 registry *)
Theorem C81_dependency_refuted : ids_of_check reg_dependency = Some ["missing_attribute"].
Proof. vm_compute. reflexivity. Qed.
Print Assumptions C81_dependency_refuted.

(* ---------- a case ---------- *)
Example C81_coherent : coherent reg_ok.
Proof.
  assert (U : forall n t, used reg_ok n t -> (n = "a.i" /\ t = TPrim PInt) \/ (n = "h" /\ t = TTemplate PStrings) \/
    (n = "a.d" /\ t = TPrim PDouble) \/ (n = "a.e" /\ t = TEnum [member (VString "x"); member (VInt 2)])).
  { intros n t (l & Hl & [(nm & k & (g & Hg & Ht & _ & _ & ->))|[(s & i & nm & u & b & (g & Hg & Ht & _ & _ & _ & _ & -> & _))|(s & nm & (g & Hg & Ht & _ & -> & _))]]).
    all: destruct Hg as [<-|[<-|[<-|[]]]]; try discriminate Ht; cbn in Hl; destruct Hl as [E|[E|[]]]; injection E as <- <-; auto. }
  assert (D : forall d, In d (defined_attrs (live_view reg_ok)) -> (vattr_name d = "a.i" /\ vattr_type d = TPrim PInt) \/
    (vattr_name d = "h" /\ vattr_type d = TTemplate PStrings) \/
    (vattr_name d = "a.d" /\ vattr_type d = TPrim PDouble) \/ (vattr_name d = "a.e" /\ vattr_type d = TEnum [member (VString "x"); member (VInt 2)])).
  { intros d H. cbn in H. destruct H as [<-|[<-|[<-|[<-|[<-|[<-|[]]]]]]]; cbn; auto. }
  constructor.
  - intros n t H. apply U in H as [[-> ->]|[[-> ->]|[[-> ->]|[-> ->]]]].
    + eexists. split; [left; reflexivity|split; reflexivity].
    + eexists. split; [right; left; reflexivity|split; reflexivity].
    + eexists. split; [right; right; left; reflexivity|split; reflexivity].
    + eexists. split; [right; right; right; left; reflexivity|split; reflexivity].
  - intros n t d H Hd En. apply U in H. apply D in Hd.
    destruct H as [[-> ->]|[[-> ->]|[[-> ->]|[-> ->]]]]; destruct Hd as [[N T]|[[N T]|[[N T]|[N T]]]]; congruence.
  - intros n p d H Hd. apply U in H. apply D in Hd.
    assert (n = "h" /\ p = PStrings) as [-> ->] by (destruct H as [[_ E]|[[-> E]|[[_ E]|[_ E]]]]; try discriminate E; injection E as ->; auto).
    split.
    + intros T. destruct Hd as [[N _]|[[N T']|[[N _]|[N _]]]]; rewrite N; discriminate.
    + intros T _ _. destruct Hd as [[_ T']|[[_ T']|[[_ T']|[_ T']]]]; rewrite T' in T |- *; try discriminate T; reflexivity.
  - intros n ms H. apply U in H as [[_ E]|[[_ E]|[[_ E]|[_ E]]]]; try discriminate E. injection E as ->.
    do 2 eexists. split; [reflexivity|]. left. eexists. reflexivity.
  - intros s s' i i' n u u' b b' l l' (g & Hg & Ht & _ & _ & _ & _ & _ & ->) (g' & Hg' & Ht' & _ & _ & _ & _ & _ & ->).
    destruct Hg as [<-|[<-|[<-|[]]]]; try discriminate Ht. destruct Hg' as [<-|[<-|[<-|[]]]]; try discriminate Ht'. reflexivity.
  - intros s s' n l l' (g & Hg & Ht & _ & _ & ->) (g' & Hg' & Ht' & _ & _ & ->).
    destruct Hg as [<-|[<-|[<-|[]]]]; try discriminate Ht. destruct Hg' as [<-|[<-|[<-|[]]]]; try discriminate Ht'. reflexivity.
  - intros g Hg. destruct Hg as [<-|[<-|[<-|[]]]]; split; intros T; try discriminate T; try split; discriminate.
Qed.
Example C81_nonvacuous : exists l, emit reg_ok "p" = Ok l /\ only_emitted l (plain_messages l) /\ all_sent l (plain_messages l) /\
  ids_of_check reg_ok = Some ["template_attribute"; "template_attribute"].
Proof.
  eexists. split; [vm_compute; reflexivity|]. split; [|split; [|vm_compute; reflexivity]].
  - intros m Hm. destruct Hm as [<-|[<-|[<-|[]]]]; intros x Hx; cbn in Hx.
    + destruct Hx as [<-|[<-|[]]]; eexists; (split; [|do 3 eexists; split; [reflexivity|]; cbn; repeat split; apply incl_refl]); cbn; auto 8.
    + destruct Hx as [<-|[]]; eexists. split; [right; right; left; reflexivity|]. do 6 eexists. split; [reflexivity|]. do 3 (split; [reflexivity|]).
      intros p [<-|[]]. split; [|reflexivity]. split; [apply incl_refl|auto].
    + destruct Hx as [<-|[]]; eexists. split; [right; right; right; left; reflexivity|]. do 2 eexists. split; [reflexivity|]. split; [reflexivity|]. split; [apply incl_refl|auto].
  - split; [intros [E|[E|[E|[]]]]; discriminate|]. split; [intros [E|[E|[E|[]]]]; discriminate|]. split.
    + intros i n u d kvs [E|[E|[E|[E|[]]]]]; try discriminate E. injection E as <- <- <- <- <-.
      eexists _, _. split; [right; left; reflexivity|]. split; [left; reflexivity|]. do 6 eexists. split; [reflexivity|]. do 3 (split; [reflexivity|]).
      intros p [<-|[]]. split; [|reflexivity]. split; [apply incl_refl|auto].
    + intros n kvs [E|[E|[E|[E|[]]]]]; try discriminate E. injection E as <- <-.
      eexists _, _. split; [right; right; left; reflexivity|]. split; [left; reflexivity|]. do 2 eexists. split; [reflexivity|]. split; [reflexivity|]. split; [apply incl_refl|auto].
Qed.
