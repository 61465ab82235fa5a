(* C105: the check of the published schemas reports the properties that are gone or new. *)
From Coq Require Import String Ascii Bool Arith NArith Lia Sorted List.
Import ListNotations.
From Verif Require Import Base BaseProofs BaseProofs2 Json SemTypes Str StrProofs CacheModel CacheProofs CompatModel CompatSpec.
From Verif Require ServeModel ServeSpec PropServe.
Local Open Scope string_scope.

Lemma mem_in s l : mem s l = true <-> In s l.
Proof.
  unfold mem. rewrite existsb_exists. split; [intros (x & I & E); apply String.eqb_eq in E as ->; exact I|].
  intros I. exists s. split; [exact I|apply String.eqb_refl].
Qed.
Lemma shown_app q : forall pre p, shown pre (app q p) = shown (shown pre q) p.
Proof. induction q as [|[f|] q IH]; intros pre p; cbn [app shown]; auto. Qed.
Lemma substring_all s : substring 0 (String.length s) s = s.
Proof. induction s as [|c s IH]; cbn; [reflexivity|rewrite IH; reflexivity]. Qed.
Lemma substring_past p s : substring (String.length p) (String.length (p ++ s) - String.length p) (p ++ s) = s.
Proof.
  induction p as [|c p IH]; cbn [String.length append substring]; [rewrite Nat.sub_0_r; apply substring_all|exact IH].
Qed.
Lemma ref_name_of name : ref_name ("#/$defs/" ++ name) = name.
Proof. unfold ref_name, strip_prefix. rewrite starts_with_app, substring_past. reflexivity. Qed.
Lemma belongs_in defs s x y q : belongs defs s x -> within x y q -> belongs defs s y.
Proof. intros B W. exact (be_in _ _ _ _ _ B W). Qed.

(* ---------- the paths ---------- *)
Definition all_plain defs x := forall y, belongs defs x y -> plain y.
Lemma belongs_trans defs x y z : belongs defs x y -> belongs defs y z -> belongs defs x z.
Proof. intros A B. induction B; [exact A|eapply be_in; eassumption|eapply be_ref; eassumption]. Qed.
Lemma plain_within defs x y q : all_plain defs x -> within x y q -> all_plain defs y.
Proof. intros A W z B. apply A. eapply belongs_trans; [eapply be_in; [apply be_self|exact W]|exact B]. Qed.
Lemma plain_ref defs x y name : all_plain defs x -> refers x name -> In (name, y) defs -> all_plain defs y.
Proof. intros A R I z B. apply A. eapply belongs_trans; [eapply be_ref; [apply be_self|exact R|exact I]|exact B]. Qed.

Section Paths.
  Variable defs : list (string * json).
  Hypothesis U : NoDup (map fst defs).
  Definition exact d node := forall pre vis t, all_plain defs node -> NoDup vis -> incl vis (map fst defs) -> List.length defs <= d + List.length vis ->
    (In t (collect_paths defs d node pre vis) <-> exists p, allows_once defs vis node p /\ t = shown pre p).
  Lemma collect_obj d m pre vis : collect_paths defs d (JObj m) pre vis =
      match obind (slookup "$ref" m) as_str with
      | Some r =>
        if mem (ref_name r) vis then []
        else match slookup (ref_name r) defs, d with
             | Some resolved, S d' => collect_paths defs d' resolved pre (ref_name r :: vis)
             | _, _ => []
             end
      | None =>
        flat_map (fun kv : string * json => let (k, v) := kv in
          if mem k ["anyOf"; "oneOf"; "allOf"] then
            match v with JArr l => flat_map (fun sub => collect_paths defs d sub pre vis) l | _ => [] end
          else if String.eqb k "properties" then
            match v with
            | JObj ps => flat_map (fun fc : string * json => let (field, child) := fc in
                field_path pre field :: collect_paths defs d child (field_path pre field) vis) ps
            | _ => []
            end
          else if String.eqb k "items" then collect_paths defs d v (pre ++ "[]") vis
          else []) m
      end.
  Proof. destruct d; reflexivity. Qed.
  Lemma no_ref m : plain (JObj m) -> (forall k v, In (k, v) m -> k <> "$ref" -> obind (slookup "$ref" m) as_str = None).
  Proof.
    intros P k v I N. destruct (P m eq_refl) as (D & R). destruct (slookup "$ref" m) as [j|] eqn:E; [|reflexivity].
    apply slookup_in in E; [|exact D]. destruct j; try reflexivity. destruct (R _ E) as (_ & K).
    apply (in_map fst) in I. rewrite K in I. destruct I as [I|[]]. destruct N. exact (eq_sym I).
  Qed.
  Lemma nothing d node pre vis : (forall m, node <> JObj m) -> collect_paths defs d node pre vis = [].
  Proof. intros N. destruct node; [destruct d; reflexivity..|]. destruct (N m eq_refl). Qed.
  Lemma no_object vis node p : (forall m, node <> JObj m) -> ~ allows_once defs vis node p.
  Proof.
    intros N A. assert (W : forall y q, ~ within node y q) by (intros y q W; destruct W; eapply N; reflexivity).
    destruct A as [? ? ? ? X|? ? ? ? ? X|? ? ? ? ? (m & -> & _)]; [exact (W _ _ X)|exact (W _ _ X)|exact (N m eq_refl)].
  Qed.
  Lemma exact_other d node : (forall m, node <> JObj m) -> exact d node.
  Proof. intros N pre vis t _ _ _ _. rewrite nothing by exact N. split; [intros []|]. intros (p & A & _). exact (no_object _ _ _ N A). Qed.

  Lemma collect_iff d : forall node, exact d node.
  Proof.
    induction d as [d IHd] using (well_founded_induction lt_wf).
    assert (K : forall node, exact d node /\ (forall l, node = JArr l -> Forall (exact d) l) /\ (forall m, node = JObj m -> Forall (fun kv => exact d (snd kv)) m));
      [|intros node; apply K].
    intros node. induction node as [|b|n|s|l IH|m IH] using json_ind2;
      try (split; [apply exact_other; discriminate|split; intros x E; try discriminate E]).
    { injection E as <-. eapply Forall_impl; [|exact IH]. intros a (A & _). exact A. }
    split; [|split; intros x E; [discriminate E|]]; [|injection E as <-; eapply Forall_impl; [|exact IH]; intros a (A & _); exact A].
    rewrite Forall_forall in IH. intros pre vis t P Nv Iv L. rewrite collect_obj.
    pose proof (P _ (be_self _ _)) as Pm. destruct (Pm m eq_refl) as (D & R).
    assert (Alt : forall k l x, In (k, JArr l) m -> In x l -> exact d x).
    { intros k l x I J. destruct (IH _ I) as (_ & A & _). specialize (A l eq_refl). rewrite Forall_forall in A. apply A, J. }
    assert (Fld : forall k ps f c, In (k, JObj ps) m -> In (f, c) ps -> exact d c).
    { intros k ps f c I J. destruct (IH _ I) as (_ & _ & A). specialize (A ps eq_refl). rewrite Forall_forall in A. apply (A _ J). }
    assert (Itm : forall k v, In (k, v) m -> exact d v) by (intros k v I; apply (IH _ I)).
    clear IH. destruct (obind (slookup "$ref" m) as_str) as [r|] eqn:Er.
    - assert (Ir : In ("$ref", JStr r) m).
      { destruct (slookup "$ref" m) as [[]|] eqn:E; cbn in Er; try discriminate. injection Er as <-. apply slookup_in in E; assumption. }
      destruct (R r Ir) as ((name & ->) & Km). rewrite ref_name_of.
      assert (Only : forall y q, ~ within (JObj m) y q).
      { intros y q W. inversion W as [m' k l x I J _ E|m' ps f c I _ E|m' i I E]; subst; apply (in_map fst) in I; rewrite Km in I; cbn in I.
        - destruct I as [<-|[]]. destruct J as [J|[J|J]]; discriminate J.
        - destruct I as [I|[]]; discriminate I.
        - destruct I as [I|[]]; discriminate I. }
      assert (Inv : forall p, allows_once defs vis (JObj m) p <-> exists c, In (name, c) defs /\ ~ In name vis /\ allows_once defs (name :: vis) c p).
      { intros p. split.
        - intros A. inversion A as [? ? ? ? W|? ? ? ? ? W|? ? name' c ? (m' & Em & I') Ic Nn Ac]; subst; [destruct (Only _ _ W)|destruct (Only _ _ W)|]. injection Em as <-.
          assert (E : name' = name).
          { apply (slookup_in m _ _ D) in Ir, I'. rewrite Ir in I'. injection I' as I'. symmetry. exact I'. }
          subst name'. exists c. auto.
        - intros (c & Ic & Nn & Ac). eapply ao_ref; [exists m; split; [reflexivity|exact Ir]|exact Ic|exact Nn|exact Ac]. }
      destruct (mem name vis) eqn:Em.
      + apply mem_in in Em. split; [intros []|]. intros (p & A & _). apply Inv in A as (c & _ & Nn & _). destruct (Nn Em).
      + assert (Nn : ~ In name vis) by (intros I; apply mem_in in I; congruence).
        destruct (slookup name defs) as [c|] eqn:Ec.
        * apply slookup_in in Ec; [|exact U]. destruct d as [|d].
          -- exfalso. apply Nn. apply (in_map fst) in Ec. revert Ec. cbn [fst]. apply NoDup_length_incl; [exact Nv| |exact Iv]. rewrite map_length. exact L.
          -- rewrite (IHd d (Nat.lt_succ_diag_r d) c pre (name :: vis) t).
             ++ split; intros (p & A & Et); exists p; (split; [|exact Et]); [apply Inv; exists c; auto|].
                apply Inv in A as (c' & Ic & _ & A). apply (slookup_in _ _ _ U) in Ic, Ec. rewrite Ec in Ic. injection Ic as <-. exact A.
             ++ eapply plain_ref; [exact P| |exact Ec]. exists m. auto.
             ++ constructor; assumption.
             ++ intros y [<-|I]; [apply (in_map fst) in Ec; exact Ec|apply Iv, I].
             ++ cbn [List.length]. lia.
        * split; [destruct d; intros []|]. intros (p & A & _). apply Inv in A as (c & Ic & _). apply (slookup_in _ _ _ U) in Ic. congruence.
    - split.
      + intros I. apply in_flat_map in I as ((k & v) & Ikv & I).
        destruct (mem k ["anyOf"; "oneOf"; "allOf"]) eqn:Mk; [|destruct (String.eqb_spec k "properties") as [->|_]; [|destruct (String.eqb_spec k "items") as [->|_]; [|destruct I]]].
        * destruct v as [| | | |l|]; try destruct I. apply in_flat_map in I as (x & Ix & I).
          assert (W : within (JObj m) x []) by (eapply wi_alt; [exact Ikv| |exact Ix]; apply mem_in in Mk; cbn in Mk; intuition).
          apply (Alt _ _ _ Ikv Ix pre vis t) in I as (p & A & ->); [|eapply plain_within; eassumption|assumption..].
          exists p. split; [|reflexivity]. exact (ao_in defs vis _ _ [] p W A).
        * destruct v as [| | | | |ps]; try destruct I. apply in_flat_map in I as ((f & c) & Ic & I).
          assert (W : within (JObj m) c [Field f]) by (eapply wi_field; eassumption).
          destruct I as [<-|I]; [exists [Field f]; split; [eapply ao_here; exact W|reflexivity]|].
          apply (Fld _ _ _ _ Ikv Ic _ vis t) in I as (p & A & ->); [|eapply plain_within; eassumption|assumption..].
          exists (Field f :: p). split; [|reflexivity]. exact (ao_in defs vis _ _ [Field f] p W A).
        * assert (W : within (JObj m) v [Item]) by (eapply wi_item; eassumption).
          apply (Itm _ _ Ikv _ vis t) in I as (p & A & ->); [|eapply plain_within; eassumption|assumption..].
          exists (Item :: p). split; [|reflexivity]. exact (ao_in defs vis _ _ [Item] p W A).
      + intros (p & A & ->). apply in_flat_map.
        inversion A as [? ? c f W|? ? c q p' W A'|? ? name' c ? (m' & Em & I') Ic Nn Ac]; subst.
        * inversion W as [|m' ps f' c' I J E|]; subst. exists ("properties", JObj ps). split; [exact I|]. cbn [mem existsb orb]. apply in_flat_map.
          exists (f, c). split; [exact J|]. left. reflexivity.
        * inversion W as [m' k l x I J Il E|m' ps f c' I J E|m' i I E]; subst.
          -- exists (k, JArr l). split; [exact I|]. cbn beta iota. assert (Mk : mem k ["anyOf"; "oneOf"; "allOf"] = true) by (apply mem_in; cbn; intuition). rewrite Mk.
             apply in_flat_map. exists c. split; [exact Il|]. apply (Alt _ _ _ I Il pre vis); [eapply plain_within; eassumption|assumption..|]. exists p'. split; [exact A'|reflexivity].
          -- exists ("properties", JObj ps). split; [exact I|]. cbn [mem existsb orb]. apply in_flat_map. exists (f, c). split; [exact J|]. right.
             apply (Fld _ _ _ _ I J _ vis); [eapply plain_within; eassumption|assumption..|]. exists p'. split; [exact A'|reflexivity].
          -- exists ("items", c). split; [exact I|]. apply (Itm _ _ I (pre ++ "[]") vis); [eapply plain_within; eassumption|assumption..|]. exists p'. split; [exact A'|reflexivity].
        * injection Em as <-. apply (slookup_in m _ _ D) in I'. rewrite I' in Er. discriminate Er.
  Qed.
End Paths.

Lemma defs_of_iff s defs : definitions s defs -> defs_of s = defs.
Proof.
  intros (m & -> & D & [(I & _)|(N & ->)]); unfold defs_of, jget.
  - apply (slookup_in _ _ _ D) in I. rewrite I. reflexivity.
  - destruct (slookup "$defs" m) as [v|] eqn:E; [|reflexivity]. apply (slookup_in _ _ _ D), (in_map fst) in E. destruct (N E).
Qed.
Lemma definitions_unique s defs : definitions s defs -> NoDup (map fst defs).
Proof. intros (m & _ & _ & [(_ & H)|(_ & ->)]); [exact H|constructor]. Qed.
(* the paths are the places where a document may have a property, without using a definition in itself *)
Theorem C105_paths s defs t : plain_schema s defs ->
  (In t (schema_paths s) <-> exists p, allows_once defs [] s p /\ place_text p = t).
Proof.
  intros (D & P). unfold schema_paths. rewrite (defs_of_iff _ _ D). rewrite add_all_in.
  rewrite (collect_iff defs (definitions_unique _ _ D) (List.length defs) s "" [] t P); [|constructor|intros x []|rewrite Nat.add_0_r; constructor].
  split; [intros [(p & A & ->)|[]]; exists p; auto|]. intros (p & A & <-). left. exists p. auto.
Qed.
Lemma once_allows defs op x p : allows_once defs op x p -> allows defs x p.
Proof. intros A. induction A; [eapply al_here; eassumption|eapply al_in; eassumption|eapply al_ref; eassumption]. Qed.
(* no path is invented *)
Theorem C105_sound s defs t : plain_schema s defs -> In t (schema_paths s) -> exists p, allows defs s p /\ place_text p = t.
Proof. intros P I. apply (C105_paths _ _ _ P) in I as (p & A & E). exists p. split; [eapply once_allows; exact A|exact E]. Qed.

(* and where no definition is used in itself, none is missed *)
Lemma allows_allows_once defs rank : (forall name d x name', In (name, d) defs -> inside d x -> refers x name' -> rank name' < rank name) ->
  forall x p, allows defs x p -> forall op l, (forall y name, inside x y -> refers y name -> rank name < l) -> (forall name, In name op -> l <= rank name) -> allows_once defs op x p.
Proof.
  intros H x p A. induction A as [x c f W|x c q p W A IH|x name c p R I A IH]; intros op l X O.
  - eapply ao_here, W.
  - eapply ao_in; [exact W|]. apply (IH op l); [|exact O]. intros y name In' R. apply (X y name); [eapply in_deep; eassumption|exact R].
  - pose proof (X x name (in_self x) R) as L. eapply ao_ref; [exact R|exact I| |].
    + intros J. specialize (O _ J). lia.
    + apply (IH (name :: op) (rank name)); [intros y name' In' R'; exact (H _ _ _ _ I In' R')|]. intros n [<-|J]; [constructor|]. specialize (O _ J). lia.
Qed.
Lemma finitely_many (s : json) : exists l : list string, forall y name, inside s y -> refers y name -> In name l.
Proof.
  set (Q := fun s => exists l : list string, forall y name, inside s y -> refers y name -> In name l).
  assert (None' : forall x, (forall m, x <> JObj m) -> Q x).
  { intros x N. exists []. intros y name I (m & -> & _). inversion I as [|? ? ? ? W _]; subst; [exact (N m eq_refl)|]. inversion W; subst; eapply N; reflexivity. }
  assert (Many : forall l : list json, Forall Q l -> exists ns, forall x y name, In x l -> inside x y -> refers y name -> In name ns).
  { intros l F. induction F as [|x l (n & A) F (ns & B)]; [exists []; intros x y name []|]. exists (app n ns). intros z y name [<-|I] J R; apply in_or_app; [left; eauto|right; eauto]. }
  assert (K : forall s, Q s /\ (forall l, s = JArr l -> Forall Q l) /\ (forall m, s = JObj m -> Forall (fun kv => Q (snd kv)) m)); [|apply K].
  clear s. intros node. induction node as [|b|n|s|l IH|m IH] using json_ind2;
    try (split; [apply None'; discriminate|split; intros x E; try discriminate E]).
  { injection E as <-. eapply Forall_impl; [|exact IH]. intros a (A & _). exact A. }
  split; [|split; intros x E; [discriminate E|]]; [|injection E as <-; eapply Forall_impl; [|exact IH]; intros a (A & _); exact A].
  set (subs := flat_map (fun kv : string * json => snd kv :: match snd kv with JArr l => l | JObj ps => map snd ps | _ => [] end) m).
  assert (F : Forall Q subs).
  { rewrite Forall_forall in IH |- *. intros x I. apply in_flat_map in I as ((k & v) & I & J). destruct (IH _ I) as (A & B & C). cbn [snd] in *. destruct J as [<-|J]; [exact A|].
    destruct v as [| | | |l|ps]; try destruct J.
    - specialize (B l eq_refl). rewrite Forall_forall in B. auto.
    - specialize (C ps eq_refl). rewrite Forall_forall in C. apply in_map_iff in J as (kv & <- & J). auto. }
  destruct (Many _ F) as (ns & B).
  exists (app (flat_map (fun kv : string * json => match snd kv with JStr r => [ref_name r] | _ => [] end) m) ns).
  intros y name I R. apply in_or_app. inversion I as [|? z ? q W J]; subst.
  - left. destruct R as (m' & E & R). injection E as <-. apply in_flat_map. exists ("$ref", JStr ("#/$defs/" ++ name)). split; [exact R|]. cbn [snd]. rewrite ref_name_of. left. reflexivity.
  - right. apply (B z y name); [|exact J|exact R]. apply in_flat_map. inversion W as [m' k l x I' J' Il E|m' ps f c' I' J' E|m' i I' E]; subst.
    + exists (k, JArr l). split; [exact I'|]. right. exact Il.
    + exists ("properties", JObj ps). split; [exact I'|]. right. apply (in_map snd) in J'. exact J'.
    + exists ("items", z). split; [exact I'|]. left. reflexivity.
Qed.
Theorem C105_complete_partial s defs p : plain_schema s defs -> not_recursive defs -> allows defs s p -> In (place_text p) (schema_paths s).
Proof.
  intros P (rank & H) A. destruct (finitely_many s) as (l & B). apply (C105_paths _ _ _ P). exists p. split; [|reflexivity].
  apply (allows_allows_once defs rank H s p A [] (S (list_max (map rank l)))); [|intros name []].
  intros y name I R. specialize (B _ _ I R). pose proof (proj1 (list_max_le (map rank l) _) (le_n _)) as F. rewrite Forall_forall in F.
  specialize (F _ (in_map rank _ _ B)). lia.
Qed.

(* ---------- versions ---------- *)
Lemma lacks_any c s : lacks c s <-> any_char (fun d => Ascii.eqb d c) s = false.
Proof.
  split.
  - induction s as [|d s IH]; intros L; [reflexivity|]. cbn. destruct (Ascii.eqb_spec d c) as [->|_]; [destruct (L "" s eq_refl)|]. apply IH. intros a b E. apply (L (String d a) b). rewrite E. reflexivity.
  - intros H a b ->. induction a as [|x a IH]; cbn in H; [rewrite Ascii.eqb_refl in H; discriminate|]. apply orb_false_iff in H. apply IH, H.
Qed.
Lemma split_head c a b : lacks c a -> split_char c (a ++ b) = match split_char c b with h :: t => (a ++ h) :: t | [] => [] end.
Proof.
  rewrite lacks_any. induction a as [|d a IH]; intros H; cbn [append split_char].
  - destruct (split_char c b) eqn:E; [destruct (split_char_ne c b E)|reflexivity].
  - cbn in H. apply orb_false_iff in H as (N & H). rewrite N, (IH H). destruct (split_char c b) eqn:E; [destruct (split_char_ne c b E)|reflexivity].
Qed.
Lemma split_cut c b : split_char c (String c b) = "" :: split_char c b.
Proof. cbn [split_char]. rewrite Ascii.eqb_refl. reflexivity. Qed.
Lemma number_lacks c s n : ServeSpec.number s n -> c = "/"%char \/ c = "."%char -> lacks c s.
Proof.
  intros (H & _) C.
  assert (D : forall t k, ServeSpec.digits t k -> any_char (fun d => Ascii.eqb d c) t = false).
  { intros t k G. induction G as [a d G|t k a d _ IH G].
    - cbn. rewrite orb_false_r. destruct C as [-> | ->]; (do 10 (destruct d as [|d]; [cbn in G; injection G as <-; reflexivity|]); discriminate G).
    - assert (One : any_char (fun d => Ascii.eqb d c) (String a "") = false).
      { cbn. rewrite orb_false_r. destruct C as [-> | ->]; (do 10 (destruct d as [|d]; [cbn in G; injection G as <-; reflexivity|]); discriminate G). }
      clear G. induction t as [|x t IHt]; [exact One|]. cbn in IH |- *. apply orb_false_iff in IH as (-> & IH). apply IHt, IH. }
  apply lacks_any. destruct H as [H|(t & -> & H)]; [exact (D _ _ H)|]. cbn. rewrite (D _ _ H). destruct C as [-> | ->]; reflexivity.
Qed.
Lemma format_iff s f : format s f -> format_const s = Some f.
Proof.
  intros (m & ps & fm & -> & D1 & I1 & D2 & I2 & D3 & I3). unfold format_const, jget. apply (slookup_in _ _ _ D1) in I1. apply (slookup_in _ _ _ D2) in I2. apply (slookup_in _ _ _ D3) in I3.
  rewrite I1. cbn [obind]. rewrite I2. cbn [obind]. rewrite I3. reflexivity.
Qed.
Lemma u64_iff s n : parse_u64 s = Some n <-> ServeSpec.number s n.
Proof. unfold parse_u64. rewrite <- PropServe.usize_iff. destruct (ServeModel.read_usize s); split; intros E; congruence. Qed.
(* the version is read from name/MAJOR.MINOR *)
Theorem C105_version s f M m : format s f -> (schema_version s = Some (M, m) <-> version s M m).
Proof.
  intros F. unfold schema_version. rewrite (format_iff _ _ F). cbn [obind]. split.
  - pose proof (split_char_join "/" f) as J. pose proof (split_char_pieces "/" f) as Pc. destruct (split_char "/" f) as [|name [|v r]]; cbn [nth_error obind]; try discriminate.
    pose proof (split_char_join "." v) as Jv. destruct (split_char "." v) as [|x [|y q]]; cbn [nth_error obind]; try discriminate; (destruct (parse_u64 x) as [a|] eqn:Ex; cbn [obind]; [|discriminate]); try discriminate.
    destruct (parse_u64 y) as [b|] eqn:Ey; cbn [obind]; [|discriminate]. intros E. injection E as <- <-. apply u64_iff in Ex, Ey.
    exists f, name, x, y. assert (L : lacks "/" name) by (apply lacks_any, Pc; left; reflexivity). cbn [join] in J, Jv.
    assert (V : exists w, v = x ++ "." ++ y ++ w /\ (w = "" \/ exists u, w = "." ++ u)).
    { destruct q as [|z q]; [exists ""; rewrite str_app_nil_r; split; [symmetry; exact Jv|left; reflexivity]|]. exists (String "." (join (String "." "") (z :: q))). split; [|right; eexists; reflexivity]. rewrite <- Jv. reflexivity. }
    destruct V as (w & -> & W). destruct r as [|z r].
    + exists w. split; [exact F|]. split; [symmetry; exact J|]. split; [exact L|]. split; [exact Ex|]. split; [exact Ey|]. destruct W as [W|(u & W)]; [left; exact W|right; exists u; left; exact W].
    + exists (w ++ "/" ++ join "/" (z :: r)). split; [exact F|]. split; [rewrite <- J; rewrite !str_app_assoc; reflexivity|]. split; [exact L|]. split; [exact Ex|]. split; [exact Ey|]. right.
      destruct W as [->|(u & ->)]; eexists; [right|left]; rewrite ?str_app_assoc; reflexivity.
  - intros (f' & name & x & y & rest & F' & E & L & Hx & Hy & R). pose proof (format_iff _ _ F) as A. rewrite (format_iff _ _ F') in A. injection A as ->. subst f.
    rewrite (split_head "/" name _ L). change ("/" ++ ?z) with (String "/" z). rewrite split_cut. cbn [nth_error].
    rewrite (split_head "/" x _ (number_lacks _ _ _ Hx (or_introl eq_refl))).
    assert (Dot : lacks "/" ".") by (apply lacks_any; reflexivity). rewrite (split_head "/" "." _ Dot).
    rewrite (split_head "/" y _ (number_lacks _ _ _ Hy (or_introl eq_refl))).
    assert (K : exists w t, split_char "/" rest = w :: t /\ (w = "" \/ exists u, w = "." ++ u)).
    { destruct R as [->|(r & [->| ->])].
      - exists "", []. auto.
      - rewrite (split_head "/" "." r Dot). destruct (split_char "/" r) as [|h t] eqn:Er; [destruct (split_char_ne _ _ Er)|]. exists ("." ++ h), t. split; [reflexivity|]. right. exists h. reflexivity.
      - change ("/" ++ r) with (String "/" r). rewrite split_cut. eexists "", _. auto. }
    destruct K as (w & t & -> & W). cbn [nth_error obind].
    rewrite (split_head "." x _ (number_lacks _ _ _ Hx (or_intror eq_refl))). change ("." ++ y ++ w) with (String "." (y ++ w)). rewrite split_cut.
    rewrite (split_head "." y _ (number_lacks _ _ _ Hy (or_intror eq_refl))).
    assert (Kw : exists t', split_char "." w = "" :: t').
    { destruct W as [->|(u & ->)]; [exists []; reflexivity|]. change ("." ++ u) with (String "." u). rewrite split_cut. eexists. reflexivity. }
    destruct Kw as (t' & ->). cbn [nth_error obind]. rewrite !str_app_nil_r. apply u64_iff in Hx, Hy. rewrite Hx. cbn [obind]. rewrite Hy. reflexivity.
Qed.
Lemma version_read s M m : version s M m -> schema_version s = Some (M, m).
Proof. intros V. pose proof V as (f & ? & ? & ? & ? & F & _). apply (C105_version s f); assumption. Qed.

(* ---------- the verdict ---------- *)
Lemma in_difference t a b : In t (difference a b) <-> In t a /\ ~ In t b.
Proof.
  unfold difference. rewrite filter_In. destruct (mem t b) eqn:E; cbn.
  - apply mem_in in E. split; [intros (_ & H); discriminate H|tauto].
  - assert (~ In t b) by (intros I; apply mem_in in I; congruence). tauto.
Qed.
Lemma filter_const {A} (b : bool) (l : list A) : filter (fun _ => b) l = if b then l else [].
Proof. destruct b; induction l as [|x l IH]; cbn; congruence. Qed.
(* a path that is gone is reported unless the major version is another *)
Theorem C105_verdict b db c dc M m M' m' t : plain_schema b db -> plain_schema c dc -> version b M m -> version c M' m' ->
  (In t (fst (compare_schemas b c)) <-> M = M' /\ has db b t /\ ~ has dc c t) /\
  (In t (snd (compare_schemas b c)) <-> (M' < M \/ (M' = M /\ m' <= m)) /\ has dc c t /\ ~ has db b t).
Proof.
  intros Pb Pc Vb Vc. pose proof (version_read _ _ _ Vb) as Eb. pose proof (version_read _ _ _ Vc) as Ec.
  unfold compare_schemas. rewrite Eb, Ec. cbv zeta. cbn [fst snd]. rewrite !filter_const.
  pose proof (C105_paths b db t Pb) as Hb. pose proof (C105_paths c dc t Pc) as Hc. fold (has db b t) in Hb. fold (has dc c t) in Hc.
  split.
  - destruct (Nat.eqb_spec M' M) as [->|N]; [rewrite in_difference, Hb, Hc; tauto|]. split; [intros []|]. intros (E & _). destruct N. symmetry. exact E.
  - unfold ver_leb. cbn [fst snd]. destruct (Nat.ltb_spec M' M); cbn [orb].
    + rewrite in_difference, Hb, Hc. tauto.
    + destruct (Nat.eqb_spec M' M) as [->|]; cbn [andb]; [|split; [intros []|intros ([?|(? & _)] & _); lia]].
      destruct (Nat.leb_spec m' m); [rewrite in_difference, Hb, Hc; intuition|]. split; [intros []|]. intros ([?|(_ & ?)] & _); lia.
Qed.
(* without a version in the older schema every difference is reported *)
Theorem C105_unversioned b db c dc t : plain_schema b db -> plain_schema c dc -> schema_version b = None ->
  (In t (fst (compare_schemas b c)) <-> has db b t /\ ~ has dc c t) /\ (In t (snd (compare_schemas b c)) <-> has dc c t /\ ~ has db b t).
Proof.
  intros Pb Pc Eb. unfold compare_schemas. rewrite Eb. cbv zeta. cbn [fst snd]. rewrite !filter_const, Nat.eqb_refl.
  pose proof (C105_paths b db t Pb) as Hb. pose proof (C105_paths c dc t Pc) as Hc. fold (has db b t) in Hb. fold (has dc c t) in Hc.
  unfold ver_leb. rewrite Nat.eqb_refl, Nat.leb_refl, orb_true_r. rewrite !in_difference, Hb, Hc. tauto.
Qed.
(* each path once, in order *)
Theorem C105_ordered b c : StronglySorted (fun x y => str_cmp x y = Lt) (fst (compare_schemas b c)) /\ StronglySorted (fun x y => str_cmp x y = Lt) (snd (compare_schemas b c)).
Proof.
  assert (F : forall p l, StronglySorted (fun x y => str_cmp x y = Lt) l -> StronglySorted (fun x y => str_cmp x y = Lt) (filter p l)).
  { intros p l S. induction S as [|a l S IH A]; [constructor|]. cbn. destruct (p a); [|exact IH]. constructor; [exact IH|]. apply Forall_forall. intros x I. apply filter_In in I as (I & _).
    rewrite Forall_forall in A. apply A, I. }
  unfold compare_schemas, difference, schema_paths. cbv zeta. cbn [fst snd]. split; apply F, F, add_all_sorted; constructor.
Qed.
Theorem C105_itself s : compare_schemas s s = ([], []).
Proof.
  unfold compare_schemas. cbv zeta. assert (D : forall l, difference l l = []).
  { intros l. destruct (difference l l) as [|x r] eqn:E; [reflexivity|]. assert (I : In x (difference l l)) by (rewrite E; left; reflexivity). apply in_difference in I. tauto. }
  rewrite D. reflexivity.
Qed.
Theorem C105_run at_tag generate checks : run at_tag generate checks = Ok tt <->
  forall arg path name, In (arg, path, name) checks -> exists b c, at_tag path = Ok b /\ generate arg = Ok c /\ compare_schemas b c = ([], []).
Proof.
  unfold run. assert (G : forall fs, (exists l, run_checks at_tag generate fs checks = Ok l /\ l = []) <->
    fs = [] /\ forall arg path name, In (arg, path, name) checks -> exists b c, at_tag path = Ok b /\ generate arg = Ok c /\ compare_schemas b c = ([], [])).
  { induction checks as [|((arg & path) & name) r IH]; intros fs; cbn [run_checks].
    - split; [intros (l & E & ->); injection E as ->; split; [reflexivity|intros ? ? ? []]|]. intros (-> & _). eexists. auto.
    - split.
      + destruct (at_tag path) as [b|] eqn:Eb; cbn [rbind]; [|intros (l & E & _); discriminate E]. destruct (generate arg) as [c|] eqn:Ec; cbn [rbind]; [|intros (l & E & _); discriminate E].
        destruct (compare_schemas b c) as [rm ad] eqn:Ed. destruct rm as [|x rm]; [destruct ad as [|y ad]|]; intros H; apply IH in H as (Ef & H); [|destruct fs; discriminate Ef..].
        split; [exact Ef|]. intros a p n [I|I]; [injection I as <- <- <-; exists b, c; auto|eauto].
      + intros (-> & H). destruct (H arg path name (or_introl eq_refl)) as (b & c & -> & -> & Ed). cbn [rbind]. rewrite Ed. apply IH. split; [reflexivity|]. intros a p n I. apply (H a p n). right. exact I. }
  specialize (G []). split.
  - intros E. apply G. destruct (run_checks at_tag generate [] checks) as [[|x l]|]; cbn [rbind] in E; try discriminate E. eexists. auto.
  - intros H. destruct (proj2 G (conj eq_refl H)) as (l & -> & ->). reflexivity.
Qed.

(* ---------- samples and refutations ---------- *)
Ltac members := repeat match goal with H : In _ (_ :: _) |- _ => destruct H as [H|H] | H : In _ [] |- _ => destruct H | H : (_, _) = (_, _) |- _ => first [discriminate H|injection H; clear H; intros; subst] | H : _ = _ \/ _ |- _ => destruct H; subst end.
Ltac inside_of W := inversion W as [? ? ? ? ?I ?J ?K|? ? ? ? ?I ?J|? ? ?I]; subst; clear W; members; try discriminate.
Lemma rooted_plain node : (forall y q, within node y q -> y = JObj [] \/ y = ref "Node") -> plain node -> (forall name, refers node name -> name = "Node") ->
  plain_schema (rooted node) [("Node", node)].
Proof.
  intros Wn Pn Rn. split.
  - eexists. split; [reflexivity|]. split; [cbn; repeat constructor; cbn; intuition discriminate|]. left. split; [left; reflexivity|]. cbn. repeat constructor; cbn; tauto.
  - assert (B : forall x, belongs [("Node", node)] (rooted node) x -> x = rooted node \/ x = node \/ x = ref "Node" \/ x = JObj []).
    { intros x B. induction B as [|x y q B IH W|x name y B IH R I]; [auto| |members; auto].
      destruct IH as [->|[->|[->| ->]]]; [unfold rooted in W; inside_of W; auto|destruct (Wn _ _ W); auto|unfold ref in W; inside_of W|inside_of W]. }
    intros x Bx. destruct (B x Bx) as [->|[->|[->| ->]]]; [|exact Pn| |]; intros m E; unfold rooted, ref in E; injection E as <-; (split; [cbn; repeat constructor; cbn; intuition discriminate|]); intros r I; members; try discriminate.
    split; [exists "Node"; reflexivity|reflexivity].
Qed.
Lemma tree_plain : plain_schema (rooted tree_node) [("Node", tree_node)].
Proof.
  apply rooted_plain.
  - intros y q W. unfold tree_node, obj in W. inside_of W; auto.
  - intros m E. unfold tree_node, obj in E. injection E as <-. split; [cbn; repeat constructor; cbn; intuition discriminate|]. intros r I. members; discriminate.
  - intros name (m & E & I). unfold tree_node, obj in E. injection E as <-. members; discriminate.
Qed.
Lemma leaf_plain : plain_schema (rooted leaf_node) [("Node", leaf_node)].
Proof.
  apply rooted_plain.
  - intros y q W. unfold leaf_node, obj in W. inside_of W; auto.
  - intros m E. unfold leaf_node, obj in E. injection E as <-. split; [cbn; repeat constructor; cbn; intuition discriminate|]. intros r I. members; discriminate.
  - intros name (m & E & I). unfold leaf_node, obj in E. injection E as <-. members; discriminate.
Qed.
Lemma leaf_not_recursive : not_recursive [("Node", leaf_node)].
Proof.
  exists (fun _ => 0). intros name d x name' I In' R. exfalso. members. destruct R as (m & -> & R). inversion In' as [|? y ? q W In2]; subst.
  - unfold leaf_node, obj in *. members; discriminate.
  - unfold leaf_node, obj in W. inside_of W; (inversion In2 as [|? y2 ? q2 W2 In3]; subst; [members|inside_of W2]).
Qed.
(* a definition that is used in itself hides what is removed below its first use *)
Theorem C105_recursive_refuted : let p := [Field "root"; Field "child"; Field "name"] in
  allows [("Node", tree_node)] (rooted tree_node) p /\ ~ allows [("Node", leaf_node)] (rooted leaf_node) p /\ compare_schemas (rooted tree_node) (rooted leaf_node) = ([], []).
Proof.
  cbv zeta. split; [|split].
  - apply (al_in _ _ (ref "Node") [Field "root"] [Field "child"; Field "name"]); [eapply wi_field; [right; left; reflexivity|left; reflexivity]|].
    assert (R : refers (ref "Node") "Node") by (eexists; split; [reflexivity|left; reflexivity]).
    apply (al_ref _ _ "Node" tree_node); [exact R|left; reflexivity|]. apply (al_in _ _ (ref "Node") [Field "child"] [Field "name"]); [eapply wi_field; [left; reflexivity|left; reflexivity]|].
    apply (al_ref _ _ "Node" tree_node); [exact R|left; reflexivity|]. eapply al_here, wi_field; [left; reflexivity|right; left; reflexivity].
  - intros A. apply (C105_complete_partial _ _ _ leaf_plain leaf_not_recursive) in A. vm_compute in A. repeat (destruct A as [A|A]; [discriminate A|]). exact A.
  - reflexivity.
Qed.
(* what stands beside a reference is not seen *)
Theorem C105_sibling_refuted : let defs := [("A", obj [("x", JObj [])])] in
  allows defs (with_sibling [("y", JObj [])]) [Field "p"; Field "y"] /\ ~ allows defs (with_sibling []) [Field "p"; Field "y"] /\
  compare_schemas (with_sibling [("y", JObj [])]) (with_sibling []) = ([], []).
Proof.
  cbv zeta. split; [|split; [|reflexivity]].
  - eapply (al_in _ _ _ [Field "p"] [Field "y"]); [eapply wi_field; [right; left; reflexivity|left; reflexivity]|]. eapply al_here, wi_field; [right; left; reflexivity|left; reflexivity].
  - intros A. unfold with_sibling in A. remember [Field "p"; Field "y"] as p eqn:E. inversion A as [? ? ? W|? ? ? ? W A'|? ? ? ? (m & Em & R) _]; subst; [discriminate| |injection Em as <-; members; discriminate].
    inside_of W. cbn in *. match goal with H : _ :: _ = [_; _] |- _ => injection H as -> end.
    inversion A' as [? ? ? W|? ? q p' W A2|? ? ? ? (m & Em & R) In' A2]; subst.
    + inside_of W.
    + inside_of W.
    + injection Em as <-. members; try discriminate. cbn in *. match goal with H : JStr _ = JStr _ |- _ => injection H as H; subst | _ => idtac end.
      inversion A2 as [? ? ? W|? ? q p' W A3|? ? ? ? (m & Em & R2) _]; subst; [inside_of W|inside_of W|injection Em as <-; members; discriminate].
Qed.
(* two places may have the same text *)
Theorem C105_dot_refuted : let b := obj [("a", obj [("b", JObj [])])] in let c := obj [("a", JObj []); ("a.b", JObj [])] in
  allows [] b [Field "a"; Field "b"] /\ ~ allows [] c [Field "a"; Field "b"] /\ compare_schemas b c = ([], []).
Proof.
  cbv zeta. split; [|split; [|reflexivity]].
  - eapply (al_in _ _ _ [Field "a"] [Field "b"]); [eapply wi_field; [left; reflexivity|left; reflexivity]|]. eapply al_here, wi_field; [left; reflexivity|left; reflexivity].
  - intros A. remember [Field "a"; Field "b"] as p eqn:E. unfold obj in A. inversion A as [? ? ? W|? ? ? ? W A'|? ? ? ? (m & Em & R) []]; subst; [discriminate|].
    inside_of W; cbn in *; match goal with H : _ :: _ = [_; _] |- _ => try discriminate H; injection H as -> end.
    inversion A' as [? ? ? W|? ? q p' W A2|? ? ? ? _ []]; subst; inside_of W.
Qed.
(* a schema that loses its version, or goes back to an older one, may lose its properties *)
Theorem C105_version_refuted : let b := formatted "manifest/2.0" [("name", JObj [])] in
  In "name" (schema_paths b) /\ compare_schemas b (JObj []) = ([], []) /\ compare_schemas b (formatted "manifest/1.0" []) = ([], []) /\
  compare_schemas b (formatted "manifest/2.0" []) = (["name"], []).
Proof. cbv zeta. split; [cbn; tauto|]. repeat split; reflexivity. Qed.
(* and no schema is checked *)
Theorem C105_off_refuted : (forall at_tag generate, run at_tag generate CHECKS = Ok tt) /\
  exists b c, fst (compare_schemas b c) = ["name"] /\ run (fun _ => Ok b) (fun _ => Ok c) [("resolved-registry-v2", "schemas/semconv.resolved.v2.json", "ResolvedRegistryV2")] = Err "Schema compatibility check failed".
Proof.
  split; [reflexivity|]. exists (formatted "manifest/2.0" [("name", JObj [])]), (formatted "manifest/2.0" []). split; reflexivity.
Qed.
Example C105_paths_ex : schema_paths listed = ["as"; "as[].x"; "as[].x.y"].
Proof. reflexivity. Qed.
Example C105_version_ex : version (formatted "manifest/2.10.3" []) 2 10.
Proof.
  assert (F : format (formatted "manifest/2.10.3" []) "manifest/2.10.3").
  { eexists _, _, _. split; [reflexivity|]. split; [cbn; repeat constructor; cbn; tauto|]. split; [left; reflexivity|]. split; [cbn; repeat constructor; cbn; tauto|]. split; [left; reflexivity|]. split; [cbn; repeat constructor; cbn; tauto|left; reflexivity]. }
  apply (C105_version _ _ 2 10 F). reflexivity.
Qed.
Example C105_verdict_ex : exists b c M m M' m', plain_schema b [] /\ plain_schema c [] /\ version b M m /\ version c M' m' /\ M = M'.
Proof.
  exists (formatted "manifest/2.10.3" []), (formatted "manifest/2.10.3" []), 2, 10, 2, 10.
  assert (P : plain_schema (formatted "manifest/2.10.3" []) []).
  { split; [eexists; split; [reflexivity|]; split; [cbn; repeat constructor; cbn; tauto|right; split; [cbn; intuition discriminate|reflexivity]]|].
    assert (B : forall x, belongs [] (formatted "manifest/2.10.3" []) x -> x = formatted "manifest/2.10.3" [] \/ x = JObj [("const", JStr "manifest/2.10.3")]).
    { intros x B. induction B as [|x y q B IH W|x name y B IH R []]; [auto|]. destruct IH as [->| ->]; [unfold formatted, obj in W; inside_of W; auto|inside_of W]. }
    intros x Bx. destruct (B x Bx) as [->| ->]; intros m E; unfold formatted, obj in E; injection E as <-; (split; [cbn; repeat constructor; cbn; intuition discriminate|]); intros r I; members; discriminate. }
  split; [exact P|]. split; [exact P|]. split; [exact C105_version_ex|]. split; [exact C105_version_ex|reflexivity].
Qed.
Print Assumptions C105_paths.
Print Assumptions C105_sound.
Print Assumptions C105_complete_partial.
Print Assumptions C105_version.
Print Assumptions C105_verdict.
Print Assumptions C105_unversioned.
Print Assumptions C105_ordered.
Print Assumptions C105_itself.
Print Assumptions C105_run.
Print Assumptions C105_recursive_refuted.
Print Assumptions C105_sibling_refuted.
Print Assumptions C105_dot_refuted.
Print Assumptions C105_version_refuted.
Print Assumptions C105_off_refuted.
