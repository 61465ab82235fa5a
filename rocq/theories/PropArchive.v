(* C113: what is fetched from an archive or a repository. *)
From Coq Require Import String Ascii Bool Arith Lia List.
From Verif Require BaseProofs VdirProofs BaseProofs.
From Verif Require Import Base Str VdirModel ArchiveModel ArchiveSpec ArchiveProofs.
Import ListNotations.
Open Scope string_scope.

Lemma tar_not_zip : forall a b, (a ++ ".tar.gz")%string <> (b ++ ".zip")%string.
Proof.
  intros a b E.
  assert (L : forall (u v : string) k, String.get (String.length u + k) (u ++ v) = String.get k v).
  { induction u as [|c u IH]; intros v k; [reflexivity|]. cbn [String.length Nat.add String.append String.get]. apply IH. }
  assert (Len : String.length (a ++ ".tar.gz") = String.length (b ++ ".zip")) by congruence.
  rewrite !BaseProofs.str_length_app in Len. cbn in Len.
  pose proof (L a ".tar.gz" 6) as G1. pose proof (L b ".zip" 3) as G2.
  rewrite E in G1. replace (String.length b + 3) with (String.length a + 6) in G2 by lia.
  rewrite G1 in G2. discriminate.
Qed.

Lemma reads_unpack : forall L name bytes es reading sub t, reads L name bytes es ->
  exists named reading', unpack_archive L name bytes reading sub t = unpack named reading' sub t es /\
    (reading' = reading \/ reading' = None) /\
    forall e, In e es -> named (e_path e) = Some (components (e_path e)).
Proof.
  intros L name bytes es reading sub t [(stem & -> & R) | (stem & -> & R & H)]; unfold unpack_archive.
  - assert (E : ends_with ".tar.gz" (stem ++ ".tar.gz") = true) by (apply VdirProofs.ends_with_spec; exists stem; reflexivity).
    rewrite E, R. exists (fun p => Some (components p)), None. auto.
  - assert (E : ends_with ".tar.gz" (stem ++ ".zip") = false).
    { destruct (ends_with ".tar.gz" (stem ++ ".zip")) eqn:E; [|reflexivity].
      apply VdirProofs.ends_with_spec in E. destruct E as (a & E). symmetry in E. destruct (tar_not_zip _ _ E). }
    assert (E2 : ends_with ".zip" (stem ++ ".zip") = true) by (apply VdirProofs.ends_with_spec; exists stem; reflexivity).
    rewrite E, E2, R. exists (enclosed_name L), reading. auto.
Qed.

(* The directory of an archive holds exactly what was packed below its top folder, or below the one sub-folder
   asked for: each file with the content packed last for its place, and the directories on the way.  What is
   missing: archives with files on top, with files in the way of directories, sub-folders of several names and
   links. *)
Theorem C113_tree_partial :
  forall L name bytes sub items es,
    reads L name bytes es ->
    Forall2 packs es items -> (forall i, In i items -> packable i) ->
    one_name sub -> no_file_on_top sub items -> consistent sub items ->
    exists t, fetch_local L name (Some bytes) sub = Unpacked t /\
      (forall p c, node_at t p = Some (NFile c) <-> last_file sub items p c) /\
      (forall p, node_at t p = Some NDir <-> a_directory sub items p).
Proof.
  intros L name bytes sub items es R HP Hpk Hs Ht Hc.
  destruct (reads_unpack L name bytes es None sub [] R) as (named & reading & E & Hr & Hn).
  pose proof (packable_names items Hpk) as Hne.
  destruct (unpack_chosen named reading sub es items [] [] Hs HP Hpk Hn) as (t & U & HT).
  - intros n p k G. destruct Hr; congruence.
  - apply holds_nil.
  - apply fits_chosen; assumption.
  - exists t. unfold fetch_local. rewrite E, U. split; [reflexivity|]. destruct HT as [HF HD]. split.
    + intros p c. rewrite HF. apply lastf_chosen, Ht.
    + intros p. rewrite HD. apply dirp_chosen, Hne.
Qed.

(* A tree whose files have different places and lie below one top folder comes back as it was packed. *)
Theorem C113_round_trip_partial :
  forall L name bytes top sub items es,
    reads L name bytes es ->
    Forall2 packs es items -> (forall i, In i items -> packable i) ->
    one_name sub -> no_file_on_top sub items -> consistent sub items ->
    (forall i, In i items -> hd_error (fst i) = Some top) ->
    (forall names c c', In (names, KFile c) items -> In (names, KFile c') items -> c = c') ->
    exists t, fetch_local L name (Some bytes) sub = Unpacked t /\
      forall p c, node_at t p = Some (NFile c) <->
        In (top :: match sub with Some s => s :: p | None => p end, KFile c) items.
Proof.
  intros L name bytes top sub items es R HP Hpk Hs Ht Hc Htop Hu.
  destruct (C113_tree_partial L name bytes sub items es R HP Hpk Hs Ht Hc) as (t & E & HF & _).
  exists t. split; [exact E|]. intros p c. rewrite HF.
  assert (K : forall names, inside sub names p -> (exists k, In (names, k) items) ->
            names = top :: match sub with Some s => s :: p | None => p end).
  { intros names (top' & Hi) (k & I0). pose proof (Htop _ I0) as G. cbn [fst] in G.
    destruct sub; subst names; cbn in G; congruence. }
  split.
  - intros (b & names & a & Ei & Hi & _).
    assert (I0 : In (names, KFile c) items) by (rewrite Ei; apply in_app_iff; right; left; reflexivity).
    rewrite <- (K names Hi); [exact I0|]. exists (KFile c). exact I0.
  - intros I0. set (names := top :: match sub with Some s => s :: p | None => p end) in *.
    assert (Hi : inside sub names p) by (exists top; unfold names; destruct sub; reflexivity).
    (* take the last one *)
    assert (X : forall l, (forall i, In i l -> In i items) -> In (names, KFile c) l ->
               exists b a, l = (b ++ (names, KFile c) :: a)%list /\ forall n' c', In (n', KFile c') a -> ~ inside sub n' p).
    { induction l as [|[n k] l IH]; intros Hl G; [destruct G|].
      assert (Hl' : forall i, In i l -> In i items) by (intros i H; apply Hl; right; exact H).
      destruct (in_dec (fun (x y : item) => ltac:(repeat decide equality) : {x = y} + {x <> y}) (names, KFile c) l) as [G'|G'].
      - destruct (IH Hl' G') as (b & a & -> & H). exists ((n, k) :: b), a. auto.
      - destruct G as [G|G]; [|destruct (G' G)]. exists [], l. split; [rewrite G; reflexivity|].
        intros n' c' I1 Hi'. assert (E' : n' = names) by (apply K; [exact Hi'|exists (KFile c'); apply Hl', I1]).
        subst n'. assert (c' = c) by (apply (Hu names c' c); [apply Hl', I1|exact I0]). subst c'. exact (G' I1). }
    destruct (X items (fun i H => H) I0) as (b & a & Ei & H). exists b, names, a. auto.
Qed.

(* From whatever an archive holds, a file of the directory is a file of the archive, at the end of its path. *)
Theorem C113_only :
  forall L name bytes sub t p c,
    (forall q cs, enclosed_name L q = Some cs -> cs = components q) ->
    fetch_local L name (Some bytes) sub = Unpacked t -> node_at t p = Some (NFile c) ->
    exists es e front, (read_tar_gz L bytes = Some es \/ read_zip L bytes = Some es) /\
      In e es /\ e_kind e = KFile c /\ components (e_path e) = (front ++ map Normal p)%list.
Proof.
  intros L name bytes sub t p c HL H Hp. unfold fetch_local, unpack_archive in H.
  assert (K : forall named reading es,
     (forall q cs, named q = Some cs -> cs = components q) ->
     unpack named reading sub [] es = Unpacked t ->
     exists e front, In e es /\ e_kind e = KFile c /\ components (e_path e) = (front ++ map Normal p)%list).
  { intros named reading es Hn U. destruct (unpack_files _ _ _ _ _ _ _ _ U Hp) as [G|G].
    - destruct p; discriminate G.
    - destruct G as (e & cs & below & I0 & Hk & En & Eb & Es). apply Hn in En. subst cs.
      assert (T : exists front, components (e_path e) = (front ++ below)%list /\ forall x, In x below -> In x (tl (components (e_path e)))).
      { unfold path_to_unpack in Eb. destruct (components (e_path e)) as [|x cs] eqn:Ec.
        - assert (below = []) by (cbn [tl] in Eb; destruct sub as [s|]; [destruct (negb (blank s))|]; congruence).
          subst below. exists []. auto.
        - cbn [tl] in Eb |- *. destruct sub as [s|].
          + destruct (negb (blank s)).
            * destruct cs as [|y cs]; [injection Eb as <-; exists [x]; auto|].
              destruct (negb (String.eqb (os_str y) s)); [discriminate|]. injection Eb as <-.
              exists [x; y]. split; [reflexivity|]. intros z Hz. right. exact Hz.
            * injection Eb as <-. exists [x]. auto.
          + injection Eb as <-. exists [x]. auto. }
      destruct T as (front & Ef & Hin). exists e, front. split; [exact I0|]. split; [exact Hk|]. rewrite Ef. f_equal.
      assert (N : forall l q, (forall x, In x l -> x = ParentDir \/ exists n, x = Normal n) -> names_of l = Some q -> l = map Normal q).
      { induction l as [|x l IH]; intros q Hl Hq; cbn [names_of] in Hq; [injection Hq as <-; reflexivity|].
        destruct (Hl x (or_introl eq_refl)) as [-> | (n & ->)]; [discriminate|].
        destruct (names_of l) as [q'|] eqn:E; [|discriminate]. injection Hq as <-. cbn [map]. f_equal.
        apply IH; [|reflexivity]. intros y Hy. apply Hl. right. exact Hy. }
      apply N; [|exact Es]. intros x Hx. apply (VdirProofs.components_tail_kind (e_path e)), Hin, Hx. }
  destruct (ends_with ".tar.gz" name).
  - destruct (read_tar_gz L bytes) as [es|]; [|discriminate].
    destruct (K (fun q => Some (components q)) None es) as (e & front & G); [intros q cs E; congruence|exact H|].
    exists es, e, front. split; [left; reflexivity|exact G].
  - destruct (ends_with ".zip" name); [|discriminate]. destruct (read_zip L bytes) as [es|]; [|discriminate].
    destruct (K (enclosed_name L) None es HL H) as (e & front & G).
    exists es, e, front. split; [right; reflexivity|exact G].
Qed.

(* An archive with a file on top, not in a folder, is never unpacked, whatever else it holds and whatever
   sub-folder is asked for. *)
Theorem C113_top_refuted :
  forall L name bytes sub es e n c,
    reads L name bytes es -> In e es -> e_path e = n -> e_kind e = KFile c -> well_named n ->
    forall t, fetch_local L name (Some bytes) sub <> Unpacked t.
Proof.
  intros L name bytes sub es e n c R I0 Ep Ek Hn t.
  destruct (reads_unpack L name bytes es None sub [] R) as (named & reading & E & _ & Hnm).
  unfold fetch_local. rewrite E. eapply unpack_top; [exact I0| |exists c; exact Ek].
  rewrite (Hnm e I0), Ep. f_equal.
  pose proof (components_slashed n [] "" (or_introl Hn)) as G. cbn [slashed map] in G.
  rewrite BaseProofs.str_app_nil_r in G. apply G; [intros x []|left; reflexivity].
Qed.

(* A sub-folder that is not in the archive gives an empty directory; one that is not in the repository is an
   error. *)
Theorem C113_missing_refuted :
  fetch_local (sample_libs sample_entries) "semconv.tar.gz" (Some "") (Some "modle") = Unpacked [] /\
  (forall t, fetch_local (sample_libs sample_entries) "semconv.tar.gz" (Some "") None = Unpacked t ->
     fetch_git (Some t) (Some "model") = At t ["model"] /\
     fetch_git (Some t) (Some "modle") = NotThere "not found in repo").
Proof.
  split; [reflexivity|]. intros t H. vm_compute in H. injection H as <-. split; reflexivity.
Qed.

(* Two top folders are put into one: a file of the archive is not in the directory. *)
Theorem C113_merged_refuted :
  exists es t,
    fetch_local (sample_libs es) "a.zip" (Some "") None = Unpacked t /\
    In (mk_entry "one/model.yaml" (KFile "first")) es /\
    forall p, node_at t p <> Some (NFile "first").
Proof.
  exists [mk_entry "one/model.yaml" (KFile "first"); mk_entry "two/model.yaml" (KFile "second")].
  eexists. split; [reflexivity|]. split; [left; reflexivity|].
  intros [|x p]; [discriminate|]. unfold node_at, put. cbn [entry_at].
  destruct (names_eqb ["model.yaml"] (x :: p)); discriminate.
Qed.

(* ---------------------------------------------------------------- remote archives *)
Lemma before_char_none : forall c s, (forall a b, s <> (a ++ String c b)%string) -> before_char c s = s.
Proof.
  intros c s. induction s as [|d s IH]; intros H; [reflexivity|]. cbn [before_char].
  destruct (Ascii.eqb_spec c d) as [<-|N]; [destruct (H "" s); reflexivity|]. f_equal. apply IH.
  intros a b ->. apply (H (String d a) b). reflexivity.
Qed.

Lemma url_name : forall url n, url_of_file url n -> url_file_name url = Some n.
Proof.
  intros url n (scheme & host & dirs & Eu & Hn & Hs & Hq & Hf).
  unfold url_file_name, url_path. rewrite (before_char_none "#"%char url Hf), (before_char_none "?"%char url Hq), Eu.
  rewrite <- (BaseProofs.str_app_nil_r (slashed _)), split_slashed; [|discriminate| |left; reflexivity].
  2:{ intros x Hx. destruct Hx as [<- | [<- | Hx]].
      - exact (Hs scheme (or_introl eq_refl)).
      - intros [|a x] b; discriminate.
      - exact (Hs x (or_intror Hx)). }
  cbn [String.eqb]. rewrite app_nil_r.
  destruct (dirs ++ [n])%list as [|seg segs] eqn:E; [destruct dirs; discriminate|].
  rewrite <- E, last_last. destruct (String.eqb_spec n ""); congruence.
Qed.

(* A remote archive gives the same, and next to it the archive itself under the last name of its url, if nothing
   in the archive has this name. *)
Theorem C113_remote_partial :
  forall L url n bytes sub items es,
    url_of_file url n -> reads L n bytes es ->
    Forall2 packs es items -> (forall i, In i items -> packable i) ->
    one_name sub -> no_file_on_top sub items -> consistent sub items ->
    (forall names k rest, In (names, k) items -> ~ inside sub names (n :: rest)) ->
    exists t, fetch_remote L url (Some bytes) sub = Unpacked t /\
      (forall p c, node_at t p = Some (NFile c) <-> (p = [n] /\ c = bytes) \/ last_file sub items p c) /\
      (forall p, node_at t p = Some NDir <-> a_directory sub items p).
Proof.
  intros L url n bytes sub items es Hu R HP Hpk Hs Ht Hc Hnn.
  pose proof (packable_names items Hpk) as Hne.
  assert (Hcn : forall rest k, ~ In (n :: rest, k) (chosen sub items)).
  { intros rest k G. apply in_chosen in G. destruct G as (names & I0 & E).
    destruct (choose_top sub names (n :: rest) (Hne _ I0) E) as [Hi|Hi]; [exact (Hnn names k rest I0 Hi)|discriminate]. }
  destruct (reads_unpack L n bytes es (Some n) sub (put [] [n] (NFile bytes)) R) as (named & reading & E & Hr & Hn).
  destruct (unpack_chosen named reading sub es items [([n], KFile bytes)] (put [] [n] (NFile bytes)) Hs HP Hpk Hn) as (t & U & HT).
  - intros m p k G Hin ->. destruct Hr as [-> | ->]; [|discriminate]. injection G as <-. exact (Hcn [] k Hin).
  - apply holds_one.
  - pose proof (fits_chosen sub items Hne Ht Hc) as F. intros p1 c p2 k A B.
    destruct A as [A|A].
    + injection A as <- <-. split; [discriminate|]. destruct B as [B|B].
      * injection B as <- <-. split; [intros x rest G; discriminate|discriminate].
      * split; [|intros _ ->; exact (Hcn [] k B)]. intros x rest ->. exact (Hcn _ _ B).
    + destruct B as [B|B]; [|exact (F p1 c p2 k A B)]. injection B as <- <-.
      assert (Np : p1 <> []) by (destruct (F p1 c p1 (KFile c) A A) as [N _]; exact N).
      split; [exact Np|]. split; [|discriminate]. intros x rest G. destruct p1 as [|y p1]; [congruence|].
      injection G as <- G. destruct p1; discriminate.
  - exists t. unfold fetch_remote. rewrite (url_name url n Hu), E, U. split; [reflexivity|]. destruct HT as [HF HD]. split.
    + intros p c. rewrite HF, <- (lastf_chosen sub items p c Ht). split.
      * intros (b & a & Eb & N). destruct b as [|i b].
        -- cbn [app] in Eb. injection Eb as <- <- <-. left. auto.
        -- injection Eb as <- Eb. right. exists b, a. auto.
      * intros [[-> ->] | (b & a & Eb & N)].
        -- exists [], (chosen sub items). split; [reflexivity|]. intros c' G. exact (Hcn [] _ G).
        -- exists (([n], KFile bytes) :: b), a. split; [cbn [app]; f_equal; exact Eb|exact N].
    + intros p. rewrite HD, <- (dirp_chosen sub items p Hne). unfold dirp. split.
      * intros [G|(q & k & [G|G] & H)]; [left; exact G| |right; exists q, k; auto].
        injection G as <- <-. destruct H as [[G _]|(x & rest & G)]; [discriminate|].
        destruct p as [|y p]; [left; reflexivity|]. injection G as <- G. destruct p; discriminate.
      * intros [G|(q & k & G & H)]; [left; exact G|]. right. exists q, k. split; [right; exact G|exact H].
Qed.

(* The directory of a remote archive is not the one of the same archive on disk. *)
Theorem C113_leftover_refuted :
  exists t t', fetch_local (sample_libs sample_entries) "semconv.zip" (Some "bytes") (Some "model") = Unpacked t /\
    fetch_remote (sample_libs sample_entries) "https://example.com/semconv.zip" (Some "bytes") (Some "model") = Unpacked t' /\
    node_at t ["semconv.zip"] = None /\ node_at t' ["semconv.zip"] = Some (NFile "bytes").
Proof. eexists. eexists. split; [reflexivity|]. split; [reflexivity|]. split; reflexivity. Qed.

(* A location taken for a remote archive because its query ends like one is downloaded and then refused. *)
Theorem C113_query_refuted :
  parse_vdir "https://example.com/get?file=semconv.zip" = Some (RemoteArchive "https://example.com/get?file=semconv.zip" None) /\
  forall L bytes, fetch_remote L "https://example.com/get?file=semconv.zip" (Some bytes) None = Refused "unsupported archive".
Proof. split; [vm_compute; reflexivity|]. intros L bytes. reflexivity. Qed.

(* ---------------------------------------------------------------- repositories *)
(* The sub-folder of a repository may have several names; the directory is the one at them, and there is none
   exactly if nothing is there. *)
Theorem C113_git :
  forall t top rest,
    well_named top -> (forall n, In n rest -> well_named n) ->
    fetch_git (Some t) None = At t [] /\
    (node_at t (top :: rest) <> None -> fetch_git (Some t) (Some (slashed (top :: rest))) = At t (top :: rest)) /\
    (node_at t (top :: rest) = None -> exists why, fetch_git (Some t) (Some (slashed (top :: rest))) = NotThere why).
Proof.
  intros t top rest Ht Hr. split; [reflexivity|].
  assert (E : names_of (components (slashed (top :: rest))) = Some (top :: rest)).
  { rewrite <- (BaseProofs.str_app_nil_r (slashed (top :: rest))), components_slashed; auto.
    unfold top_component. destruct (String.eqb_spec top ".") as [->|N]; [destruct Ht as (_ & G & _); congruence|].
    cbn [names_of]. rewrite names_of_normal. reflexivity. }
  unfold fetch_git. rewrite E. split.
  - intros H. destruct (node_at t (top :: rest)); congruence.
  - intros H. rewrite H. eauto.
Qed.

(* ---------------------------------------------------------------- cases *)
Example C113_case :
  (exists t, fetch_local (sample_libs sample_entries) "semconv.tar.gz" (Some "") (Some "model") = Unpacked t /\
     node_at t ["http"; "spans.yaml"] = Some (NFile "groups: []") /\
     node_at t ["manifest.yaml"] = Some (NFile "name: acme2") /\
     node_at t ["http"] = Some NDir /\ node_at t ["README.md"] = None) /\
  Forall2 packs sample_entries sample_items /\
  url_of_file "https://example.com/semconv.zip" "semconv.zip".
Proof.
  split; [eexists; split; [reflexivity|]; repeat split|]. split.
  - unfold sample_entries, sample_items.
    repeat (constructor; [split; [reflexivity|cbn; auto]|]). constructor.
  - exists "https:", "example.com", []. split; [reflexivity|]. split; [discriminate|].
    assert (N : forall c s, before_char c s = s -> forall a b, s <> (a ++ String c b)%string).
    { intros c s H a. revert s H. induction a as [|d a IH]; intros s H b ->; cbn [String.append before_char] in H.
      - rewrite Ascii.eqb_refl in H. discriminate.
      - destruct (Ascii.eqb c d); [discriminate|]. injection H as H. exact (IH _ H b eq_refl). }
    split; [|split; apply N; reflexivity].
    intros x [<- | [<- | [<- | []]]]; apply N; reflexivity.
Qed.

Lemma sample_named : forall n, In n ["semconv-1.0"; "README.md"; "model"; "http"; "spans.yaml"; "manifest.yaml"] -> well_named n.
Proof.
  assert (N : forall c s, before_char c s = s -> forall a b, s <> (a ++ String c b)%string).
  { intros c s H a. revert s H. induction a as [|d a IH]; intros s H b ->; cbn [String.append before_char] in H.
    - rewrite Ascii.eqb_refl in H. discriminate.
    - destruct (Ascii.eqb c d); [discriminate|]. injection H as H. exact (IH _ H b eq_refl). }
  intros n H. cbn [In] in H.
  destruct H as [<- | [<- | [<- | [<- | [<- | [<- | []]]]]]];
    (split; [discriminate|split; [discriminate|split; [discriminate|apply N; reflexivity]]]).
Qed.

(* the sample meets the conditions *)
Example C113_conditions :
  reads (sample_libs sample_entries) "semconv.tar.gz" "" sample_entries /\
  (forall i, In i sample_items -> packable i) /\ one_name (Some "model") /\
  no_file_on_top (Some "model") sample_items /\ consistent (Some "model") sample_items.
Proof.
  split; [left; exists "semconv"; split; reflexivity|]. split.
  { intros i H. unfold sample_items in H. cbn [In] in H.
    repeat (destruct H as [<- | H]; [eexists; eexists; split; [reflexivity|]; split; [left; apply sample_named; cbn; tauto|];
      intros n Hn; apply sample_named; cbn in Hn |- *; tauto|]). destruct H. }
  split.
  { split; [apply sample_named; cbn; tauto|]. exists "", "m"%char, "odel". split; [reflexivity|]. cbn. intuition discriminate. }
  split.
  { intros names c H. unfold sample_items in H. cbn [In] in H.
    repeat (destruct H as [H|H]; [first [discriminate H | injection H as E1 E2; rewrite <- E1; split;
      [eexists; eexists; eexists; reflexivity|intros (top & E); discriminate E]]|]). destruct H. }
  { intros n1 c p1 n2 k p2 A (t1 & E1) B (t2 & E2). unfold sample_items in A, B. cbn [In] in A, B.
    assert (P1 : p1 = ["http"; "spans.yaml"] \/ p1 = ["manifest.yaml"]).
    { repeat (destruct A as [A|A]; [first [discriminate A | injection A as A A'; rewrite <- A in E1;
        first [discriminate E1 | injection E1 as _ E1; rewrite <- E1; tauto]]|]). destruct A. }
    assert (P2 : (p2 = [] /\ k = KDir) \/ ((p2 = ["http"; "spans.yaml"] \/ p2 = ["manifest.yaml"]) /\ k <> KDir)).
    { repeat (destruct B as [B|B]; [injection B as B B'; rewrite <- B in E2; rewrite <- B';
        first [discriminate E2 | injection E2 as _ E2; rewrite <- E2; first [left; split; reflexivity | right; split; [tauto|discriminate]]]|]).
      destruct B. }
    clear - P1 P2. destruct P1 as [-> | ->]; destruct P2 as [[-> ->] | [[-> | ->] N]];
      (split; [intros x rest E; discriminate E|intros K; try (destruct (N K)); discriminate]). }
Qed.

Print Assumptions C113_tree_partial.
Print Assumptions C113_round_trip_partial.
Print Assumptions C113_only.
Print Assumptions C113_top_refuted.
Print Assumptions C113_missing_refuted.
Print Assumptions C113_merged_refuted.
Print Assumptions C113_remote_partial.
Print Assumptions C113_leftover_refuted.
Print Assumptions C113_query_refuted.
Print Assumptions C113_git.
