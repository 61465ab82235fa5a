(* C90: packaging a registry, and finding the package again. *)
From Coq Require Import String Ascii Bool Arith Lia List.
Import ListNotations.
From Verif Require Import Base BaseProofs SemTypes Json Str UrlModel ResultModel ManifestModel ManifestSpec.
From Verif Require VdirModel LoadModel UrlSpec PropUrl ResultSpec ResultProofs.
From Verif Require Import PropManifest.
Local Open Scope string_scope.

(* ---------------------------------------------------------------- helpers *)

Lemma has_error_spec {E} (ds : list (diag E)) :
  has_error ds = true <-> exists x, In x ds /\ failing x.
Proof.
  rewrite ResultProofs.has_error_iff.
  assert (K : forall x : diag E, ResultSpec.counts_as_error x <-> failing x).
  { intros x. unfold ResultSpec.counts_as_error, failing. tauto. }
  split; intros (x & I & F); exists x; (split; [exact I|]); apply K; exact F.
Qed.

Lemma no_error_spec {E} (ds : list (diag E)) :
  has_error ds = false <-> forall x, In x ds -> ~ failing x.
Proof.
  split.
  - intros H x I F. assert (has_error ds = true) by (apply has_error_spec; eauto). congruence.
  - intros H. destruct (has_error ds) eqn:K; [|reflexivity]. apply has_error_spec in K.
    destruct K as (x & I & F). destruct (H x I F).
Qed.

Lemma versioned_spec d : is_versioned d = false <-> unversioned d.
Proof.
  unfold is_versioned, unversioned. destruct (su_get_version (dep_url d)) as [v|].
  - rewrite negb_false_iff, String.eqb_eq. unfold unknown_version. split; congruence.
  - split; discriminate.
Qed.

Lemma publish_ok d uri p :
  publish d uri = ROk p <->
  p = published d uri /\ forall x, In x (df_dependencies d) -> ~ unversioned x.
Proof.
  unfold publish, published.
  destruct (collect_all _ (df_dependencies d)) as [deps|e] eqn:C.
  - apply collect_ok in C.
    assert (K : deps = map (fun x => mk_dependency (dep_url x) None) (df_dependencies d) /\
                forall x, In x (df_dependencies d) -> ~ unversioned x).
    { induction C as [|a b l l' X _ [IH1 IH2]].
      - split; [reflexivity|intros x []].
      - destruct (is_versioned a) eqn:V; cbn in X; [|discriminate]. injection X as <-.
        split; [cbn; congruence|]. intros x [<-|I]; [|auto].
        intros U. apply versioned_spec in U. congruence. }
    destruct K as [-> K]. split.
    + intros H. injection H as <-. auto.
    + intros [-> _]. reflexivity.
  - apply collect_err in C. destruct C as (g & a & r & D & _ & X).
    split; [discriminate|]. intros [_ K]. exfalso. apply (K a).
    + rewrite D. apply in_or_app. right. left. reflexivity.
    + destruct (is_versioned a) eqn:V; cbn in X; [discriminate|]. apply versioned_spec. exact V.
Qed.

Lemma publish_err d uri e :
  publish d uri = RErr e <->
  exists good rest, df_dependencies d = app good (e :: rest) /\ unversioned e /\
    forall x, In x good -> ~ unversioned x.
Proof.
  unfold publish.
  assert (K : forall g, (forall x, In x g -> exists b, (if negb (is_versioned x) then RErr x
                 else ROk (mk_dependency (dep_url x) None)) = @ROk dependency dependency b)
              <-> forall x, In x g -> ~ unversioned x).
  { intros g. split; intros H x I.
    - destruct (H x I) as (b & Hb). intros U. apply versioned_spec in U. rewrite U in Hb. discriminate.
    - specialize (H x I). destruct (is_versioned x) eqn:V; cbn; [eauto|].
      apply versioned_spec in V. destruct (H V). }
  destruct (collect_all _ (df_dependencies d)) as [deps|e'] eqn:C.
  - split; [discriminate|]. intros (g & r & D & U & _). apply collect_ok in C. rewrite D in C.
    apply Forall2_app_inv_l in C. destruct C as (l1 & l2 & _ & C & _).
    inversion C as [|x y l l' X _]; subst. apply versioned_spec in U. rewrite U in X. discriminate X.
  - split.
    + intros H. injection H as ->. apply collect_err in C. destruct C as (g & a & r & D & G & X).
      destruct (is_versioned a) eqn:V; cbn in X; [discriminate|]. injection X as ->.
      exists g, r. split; [exact D|]. split; [apply versioned_spec; exact V|]. apply K. exact G.
    + intros (g & r & D & U & G). f_equal.
      assert (C2 : @collect_all dependency dependency dependency (fun dp => if negb (is_versioned dp) then RErr dp
                       else ROk (mk_dependency (dep_url dp) None)) (df_dependencies d) = RErr e).
      { apply collect_err. exists g, e, r. split; [exact D|]. split; [apply K; exact G|].
        apply versioned_spec in U. rewrite U. reflexivity. }
      congruence.
Qed.

(* operations that touch one file only *)
Definition touches (f : string) (o : fs_op) : Prop :=
  match o with Mkdir _ => False | CreateFile g | AppendTo g _ => g = f end.

Lemma run_app a b d : run_ops (app a b) d = run_ops b (run_ops a d).
Proof. apply fold_left_app. Qed.

Lemma untouched f ops : (forall o, In o ops -> ~ touches f o) ->
  forall d, run_ops ops d f = d f.
Proof.
  induction ops as [|o ops IH]; intros H d; [reflexivity|].
  cbn [run_ops fold_left]. change (fold_left apply_op ops (apply_op d o)) with (run_ops ops (apply_op d o)).
  rewrite IH by (intros x I; apply H; right; exact I).
  specialize (H o (or_introl eq_refl)). destruct o as [x|g|g b]; cbn in *; [reflexivity| |];
    destruct (String.eqb_spec f g); congruence.
Qed.

Lemma str_concat_app c cs : String.concat "" (c :: cs) = c ++ String.concat "" cs.
Proof. destruct cs; cbn; [rewrite str_app_nil_r; reflexivity|reflexivity]. Qed.

Lemma run_append f cs : forall d c, d f = Some c ->
  run_ops (map (AppendTo f) cs) d f = Some (c ++ String.concat "" cs).
Proof.
  induction cs as [|x cs IH]; intros d c H.
  - cbn. rewrite str_app_nil_r. exact H.
  - rewrite str_concat_app.
    change (run_ops (map (AppendTo f) (x :: cs)) d f)
      with (run_ops (map (AppendTo f) cs) (apply_op d (AppendTo f x)) f).
    rewrite (IH _ (c ++ x)); [rewrite str_app_assoc; reflexivity|].
    cbn. rewrite String.eqb_refl, H. reflexivity.
Qed.

Section Write.
  Variable io : list fs_op -> fs_op -> bool.
  Variable buffered : string -> list string * string.

  Lemma chunks_touch f cs : forall done ok done', write_chunks io f cs done = (ok, done') ->
    exists ops, done' = app done ops /\ forall o, In o ops -> touches f o.
  Proof.
    induction cs as [|c cs IH]; intros done ok done' H; cbn in H.
    - injection H as <- <-. exists []. split; [rewrite app_nil_r; reflexivity|intros o []].
    - destruct (io done (AppendTo f c)).
      + destruct (IH _ _ _ H) as (ops & -> & T). exists (AppendTo f c :: ops).
        split; [rewrite <- app_assoc; reflexivity|]. intros o [<-|I]; [reflexivity|auto].
      + injection H as <- <-. exists []. split; [rewrite app_nil_r; reflexivity|intros o []].
  Qed.

  Lemma write_touch f t done ok done' : write_yaml io buffered f t done = (ok, done') ->
    exists ops, done' = app done ops /\ forall o, In o ops -> touches f o.
  Proof.
    unfold write_yaml. destruct (io done (CreateFile f)).
    - destruct (write_chunks io f (fst (buffered t)) (app done [CreateFile f])) as [ok1 d1] eqn:W.
      destruct (chunks_touch _ _ _ _ _ W) as (ops & -> & T).
      destruct ok1.
      + cbv zeta. intros H. injection H as <- <-.
        destruct (io _ _).
        * exists (CreateFile f :: app ops [AppendTo f (snd (buffered t))]).
          split; [rewrite <- !app_assoc; reflexivity|].
          intros o [<-|I]; [reflexivity|]. apply in_app_or in I. destruct I as [I|[<-|[]]]; [auto|reflexivity].
        * exists (CreateFile f :: ops). split; [rewrite <- app_assoc; reflexivity|].
          intros o [<-|I]; [reflexivity|auto].
      + intros H. injection H as <- <-. exists (CreateFile f :: ops).
        split; [rewrite <- app_assoc; reflexivity|]. intros o [<-|I]; [reflexivity|auto].
    - intros H. injection H as <- <-. exists []. split; [rewrite app_nil_r; reflexivity|intros o []].
  Qed.

  Lemma chunks_reliable f cs : reliable io -> forall done,
    write_chunks io f cs done = (true, app done (map (AppendTo f) cs)).
  Proof.
    intros R. induction cs as [|c cs IH]; intros done; cbn.
    - rewrite app_nil_r. reflexivity.
    - rewrite R, IH, <- app_assoc. reflexivity.
  Qed.

  (* the operations of one complete write *)
  Definition full_write (f t : string) : list fs_op :=
    CreateFile f :: app (map (AppendTo f) (fst (buffered t))) [AppendTo f (snd (buffered t))].

  Lemma write_reliable f t done : reliable io ->
    write_yaml io buffered f t done = (true, app done (full_write f t)).
  Proof.
    intros R. unfold write_yaml, full_write. rewrite R, (chunks_reliable _ _ R). cbv zeta. rewrite R.
    f_equal. rewrite <- !app_assoc. reflexivity.
  Qed.

  Lemma full_write_touch f t o : In o (full_write f t) -> touches f o.
  Proof.
    intros [<-|I]; [reflexivity|]. apply in_app_or in I. destruct I as [I|[<-|[]]]; [|reflexivity].
    apply in_map_iff in I. destruct I as (x & <- & _). reflexivity.
  Qed.

  Lemma full_write_result f t d : lossless buffered -> run_ops (full_write f t) d f = Some t.
  Proof.
    intros L. unfold full_write.
    change (CreateFile f :: ?x) with (app [CreateFile f] x). rewrite !run_app.
    cbn [run_ops fold_left apply_op].
    assert (K : apply_op d (CreateFile f) f = Some "") by (cbn; rewrite String.eqb_refl; reflexivity).
    pose proof (run_append f (fst (buffered t)) _ _ K) as A.
    unfold run_ops in A. rewrite String.eqb_refl.
    unfold run_ops. cbn [apply_op] in A. rewrite A. cbn. f_equal. apply L.
  Qed.

  Lemma chunks_done f cs : forall done done', write_chunks io f cs done = (true, done') ->
    done' = app done (map (AppendTo f) cs).
  Proof.
    induction cs as [|c cs IH]; intros done done' H; cbn in H.
    - injection H as <-. cbn. rewrite app_nil_r. reflexivity.
    - destruct (io done (AppendTo f c)); [|discriminate H].
      rewrite (IH _ _ H), <- app_assoc. reflexivity.
  Qed.

  (* a write that is not refused did all but perhaps its last step *)
  Lemma write_done f t done done' : write_yaml io buffered f t done = (true, done') ->
    exists ops, done' = app done ops /\ (forall o, In o ops -> touches f o) /\
      forall d, lossless buffered -> holds buffered (run_ops ops d f) t.
  Proof.
    unfold write_yaml. destruct (io done (CreateFile f)); [|discriminate].
    destruct (write_chunks io f (fst (buffered t)) (app done [CreateFile f])) as [ok1 d1] eqn:W.
    destruct ok1; [|discriminate]. apply chunks_done in W. subst d1. cbv zeta.
    intros H. injection H as <-. destruct (io _ _).
    - exists (full_write f t). split; [unfold full_write; rewrite <- !app_assoc; reflexivity|].
      split; [apply full_write_touch|]. intros d L. exists (snd (buffered t)).
      split; [symmetry; apply L|]. left. apply full_write_result. exact L.
    - exists (CreateFile f :: map (AppendTo f) (fst (buffered t))).
      split; [rewrite <- app_assoc; reflexivity|]. split.
      + intros o [<-|I]; [reflexivity|]. apply in_map_iff in I. destruct I as (x & <- & _). reflexivity.
      + intros d L. exists (snd (buffered t)). split; [symmetry; apply L|]. right.
        change (CreateFile f :: ?x) with (app [CreateFile f] x). rewrite run_app.
        rewrite (run_append f _ _ ""); [reflexivity|]. cbn. rewrite String.eqb_refl. reflexivity.
  Qed.
End Write.

Lemma names_differ d : LoadModel.join_path d "resolved.yaml" <> LoadModel.join_path d "manifest.yaml".
Proof.
  unfold LoadModel.join_path. destruct (String.eqb d ""); [discriminate|].
  destruct (LoadModel.ends_slash d); intros H; apply str_app_inj_l in H; discriminate H.
Qed.

(* ---------------------------------------------------------------- C90 *)

Section Package.
  Variables (R E : Type).
  Variable io : list fs_op -> fs_op -> bool.
  Variable buffered : string -> list string * string.
  Variable yaml_text : json -> string.
  Notation pack := (@package R E io buffered yaml_text).

  (* the command up to the writing *)
  Lemma package_cases (j : job R E) :
    (exists e, pack j = (RErr e, [])) \/
    (exists d uri schema ds dep, fst (pack j) = RErr (PUnversioned dep) /\
       snd (pack j) = [Mkdir (jb_output j)] /\ jb_uri j = Some uri /\
       jb_v2 j = true /\ (exists ds1, jb_repo j = ROk (Some (MDefinition d), ds1)) /\
       publish d uri = RErr dep /\ (exists s, jb_as_v2 j s = ROk schema) /\ @has_error E ds = false) \/
    (exists d uri schema ds, packages j d uri schema ds /\
       let f1 := in_output j "resolved.yaml" in let f2 := in_output j "manifest.yaml" in
       let '(ok1, done1) := write_yaml io buffered f1 (yaml_text schema) [Mkdir (jb_output j)] in
       if ok1 then
         let '(ok2, done2) := write_yaml io buffered f2 (yaml_text (publication_value (published d uri))) done1 in
         pack j = (if ok2 then ROk ds else RErr (PWrite f2), done2)
       else pack j = (RErr (PWrite f1), done1)).
  Proof.
    unfold package.
    destruct (jb_uri j) as [uri|] eqn:U; [|left; eexists; reflexivity].
    destruct (jb_v2 j) eqn:V; cbn [negb]; [|left; eexists; reflexivity].
    destruct (jb_repo j) as [[[[d|p]|] ds1]|e] eqn:Rp; try (left; eexists; reflexivity).
    destruct (jb_resolved j) as [[r ds2]|e] eqn:Rs; [|left; eexists; reflexivity].
    destruct (jb_as_v2 j r) as [schema|e] eqn:A; [|left; eexists; reflexivity].
    destruct (jb_policies j schema) as [ds3|e] eqn:P; [|left; eexists; reflexivity].
    cbv zeta. destruct (has_error (app ds1 (app ds2 ds3))) eqn:HE; [left; eexists; reflexivity|].
    destruct (io [] (Mkdir (jb_output j))); cbn [negb]; [|left; eexists; reflexivity].
    right. destruct (publish d uri) as [pub|dep] eqn:Pb.
    - right. apply publish_ok in Pb. destruct Pb as [-> Dv].
      exists d, uri, schema, (app ds1 (app ds2 ds3)). split.
      + unfold packages. split; [exact U|]. split; [exact V|]. exists ds1, r, ds2, ds3.
        split; [exact Rp|]. split; [exact Rs|]. split; [exact A|]. split; [exact P|].
        split; [reflexivity|]. split; [apply no_error_spec; exact HE|exact Dv].
      + destruct (write_yaml io buffered (in_output j "resolved.yaml") _ _) as [ok1 done1].
        destruct ok1; cbn [negb]; [|reflexivity].
        destruct (write_yaml io buffered (in_output j "manifest.yaml") _ _) as [ok2 done2].
        destruct ok2; reflexivity.
    - left. exists d, uri, schema, (app ds1 (app ds2 ds3)), dep. cbn [fst snd].
      split; [reflexivity|]. split; [reflexivity|]. split; [reflexivity|]. split; [reflexivity|].
      split; [eexists; reflexivity|]. split; [exact Pb|]. split; [eexists; exact A|exact HE].
  Qed.

  (* The command succeeds only for a definition registry that resolves without a
     failing finding, has a URI and only versioned dependencies; everything reported
     on the way comes out as a warning. *)
  Theorem C90_success :
    forall (j : job R E) ds, fst (pack j) = ROk ds -> exists d uri schema, packages j d uri schema ds.
  Proof.
    intros j ds H. destruct (package_cases j) as [(e & K)|[(d & uri & s & ds' & dep & K & _)|(d & uri & s & ds' & P & K)]].
    - rewrite K in H. discriminate H.
    - rewrite K in H. discriminate H.
    - cbv zeta in K. destruct (write_yaml io buffered _ _ _) as [ok1 done1].
      destruct ok1; [|rewrite K in H; discriminate H].
      destruct (write_yaml io buffered _ _ _) as [ok2 done2].
      rewrite K in H. destruct ok2; [|discriminate H]. injection H as ->. eauto.
  Qed.

  Lemma packages_run (j : job R E) d uri schema ds : packages j d uri schema ds -> reliable io ->
    pack j = (ROk ds, app [Mkdir (jb_output j)]
                (app (full_write buffered (in_output j "resolved.yaml") (yaml_text schema))
                     (full_write buffered (in_output j "manifest.yaml")
                        (yaml_text (publication_value (published d uri)))))).
  Proof.
    intros (U & V & ds1 & r & ds2 & ds3 & Rp & Rs & A & P & D & NF & Dv) Rel. unfold package.
    rewrite U, V. cbn [negb]. rewrite Rp, Rs, A, P. cbv zeta.
    subst ds. rewrite (proj2 (no_error_spec _) NF). rewrite Rel. cbn [negb].
    rewrite (proj2 (publish_ok d uri (published d uri)) (conj eq_refl Dv)).
    rewrite !(write_reliable io buffered _ _ _ Rel). cbn [negb]. rewrite <- !app_assoc. reflexivity.
  Qed.

  (* On a disk that never refuses, these are the only conditions. *)
  Theorem C90_succeeds :
    forall (j : job R E) ds, reliable io ->
      (fst (pack j) = ROk ds <-> exists d uri schema, packages j d uri schema ds).
  Proof.
    intros j ds Rel. split; [apply C90_success|].
    intros (d & uri & schema & P). rewrite (packages_run _ _ _ _ _ P Rel). reflexivity.
  Qed.

  (* Then the two files hold the resolved schema and the publication manifest, and no
     other file has changed. *)
  Theorem C90_files :
    forall (j : job R E) d uri schema ds before,
      reliable io -> lossless buffered -> packages j d uri schema ds ->
      let after := run_ops (snd (pack j)) before in
      after (LoadModel.join_path (jb_output j) "resolved.yaml") = Some (yaml_text schema) /\
      after (LoadModel.join_path (jb_output j) "manifest.yaml")
        = Some (yaml_text (publication_value (published d uri))) /\
      forall f, f <> LoadModel.join_path (jb_output j) "resolved.yaml" ->
                f <> LoadModel.join_path (jb_output j) "manifest.yaml" -> after f = before f.
  Proof.
    intros j d uri schema ds before Rel L P. rewrite (packages_run _ _ _ _ _ P Rel). cbn [snd]. cbv zeta.
    fold (in_output j "resolved.yaml"). fold (in_output j "manifest.yaml").
    assert (N : in_output j "resolved.yaml" <> in_output j "manifest.yaml") by apply names_differ.
    rewrite !run_app. split; [|split].
    - rewrite untouched; [apply full_write_result; exact L|].
      intros o I T. apply full_write_touch in I.
      destruct o as [x|g|g b]; cbn in I, T; congruence.
    - apply full_write_result. exact L.
    - intros f N1 N2. rewrite untouched, untouched; [reflexivity| |].
      + intros o I T. apply full_write_touch in I. destruct o as [x|g|g b]; cbn in I, T; congruence.
      + intros o I T. apply full_write_touch in I. destruct o as [x|g|g b]; cbn in I, T; congruence.
  Qed.

  (* Whatever the disk does, and wherever the command is interrupted, only those two
     files are ever touched. *)
  Theorem C90_only_the_package :
    forall (j : job R E) before pre post f,
      snd (pack j) = app pre post ->
      f <> LoadModel.join_path (jb_output j) "resolved.yaml" ->
      f <> LoadModel.join_path (jb_output j) "manifest.yaml" ->
      run_ops pre before f = before f.
  Proof.
    intros j before pre post f H N1 N2. apply untouched. intros o I T.
    assert (I' : In o (snd (pack j))) by (rewrite H; apply in_or_app; left; exact I). clear I H.
    assert (K : forall o, In o (snd (pack j)) -> (exists x, o = Mkdir x) \/
              touches (in_output j "resolved.yaml") o \/ touches (in_output j "manifest.yaml") o).
    { clear. intros o I.
      destruct (package_cases j) as [(e & K)|[(d & uri & s & ds' & dep & _ & K & _)|(d & uri & s & ds' & P & K)]].
      - rewrite K in I. destruct I.
      - rewrite K in I. destruct I as [<-|[]]. left. eauto.
      - cbv zeta in K.
        destruct (write_yaml io buffered (in_output j "resolved.yaml") _ _) as [ok1 done1] eqn:W1.
        destruct (write_touch _ _ _ _ _ _ _ W1) as (o1 & -> & T1).
        destruct ok1.
        + destruct (write_yaml io buffered (in_output j "manifest.yaml") _ _) as [ok2 done2] eqn:W2.
          destruct (write_touch _ _ _ _ _ _ _ W2) as (o2 & -> & T2).
          rewrite K in I. cbn [snd] in I. apply in_app_or in I. destruct I as [I|I]; [|auto].
          apply in_app_or in I. destruct I as [[<-|[]]|I]; [left; eauto|auto].
        + rewrite K in I. cbn [snd] in I. apply in_app_or in I. destruct I as [[<-|[]]|I]; [left; eauto|auto]. }
    destruct (K _ I') as [(x & ->)|[T'|T']]; [exact T| |];
      (destruct o as [x|g|g b]; cbn in T, T'; [exact T| |]); subst g;
      first [apply N1; symmetry; exact T'|apply N2; symmetry; exact T'|apply N1; exact T'|apply N2; exact T'].
  Qed.

  (* A refused registry leaves every file as it was, if the disk does not refuse; the
     output directory may have been created. *)
  Theorem C90_refused_partial :
    forall (j : job R E) e before f,
      reliable io -> fst (pack j) = RErr e ->
      run_ops (snd (pack j)) before f = before f /\
      (snd (pack j) <> [] -> snd (pack j) = [Mkdir (jb_output j)] /\ exists d, e = PUnversioned d).
  Proof.
    intros j e before f Rel H.
    destruct (package_cases j) as [(e' & K)|[(d & uri & s & ds' & dep & K1 & K & _)|(d & uri & s & ds' & P & _)]].
    - rewrite K. split; [reflexivity|]. cbn. congruence.
    - rewrite K. split; [reflexivity|]. intros _. split; [reflexivity|]. exists dep. congruence.
    - rewrite (packages_run _ _ _ _ _ P Rel) in H. discriminate H.
  Qed.

  (* A dependency without version is refused by name: it is the first one. *)
  Theorem C90_unversioned :
    forall (j : job R E) dep, fst (pack j) = RErr (PUnversioned dep) ->
      exists d ds1 good rest, jb_repo j = ROk (Some (MDefinition d), ds1) /\
        df_dependencies d = app good (dep :: rest) /\ unversioned dep /\
        forall x, In x good -> ~ unversioned x.
  Proof.
    intros j dep H.
    destruct (package_cases j) as [(e' & K)|[(d & uri & s & ds' & dep' & K1 & _ & _ & _ & (ds1 & K2) & K3 & _)|(d & uri & s & ds' & P & K)]].
    - rewrite K in H. cbn in H. injection H as ->. unfold package in K.
      destruct (jb_uri j) as [uri|]; [|discriminate].
      destruct (jb_v2 j); cbn [negb] in K; [|discriminate].
      destruct (jb_repo j) as [[[[d|p]|] ds1]|e]; try discriminate.
      destruct (jb_resolved j) as [[r ds2]|e]; [|discriminate].
      destruct (jb_as_v2 j r) as [schema|e]; [|discriminate].
      destruct (jb_policies j schema) as [ds3|e]; [|discriminate].
      cbv zeta in K. destruct (has_error _); [discriminate|].
      destruct (io [] _); cbn [negb] in K; [|discriminate].
      destruct (publish d uri) as [pub|e]; [|discriminate].
      destruct (write_yaml io buffered _ _ _) as [[] d1]; [|discriminate]. cbn [negb] in K.
      destruct (write_yaml io buffered _ _ _) as [[] d2]; discriminate.
    - assert (dep' = dep) by congruence. subst dep'. apply publish_err in K3.
      destruct K3 as (g & r & D & U & G). exists d, ds1, g, r. auto.
    - cbv zeta in K. destruct (write_yaml io buffered _ _ _) as [ok1 done1].
      destruct ok1; [|rewrite K in H; discriminate H].
      destruct (write_yaml io buffered _ _ _) as [ok2 done2].
      rewrite K in H. destruct ok2; discriminate H.
  Qed.

  (* Interrupted anywhere in a directory without a manifest, the command leaves no
     manifest, or one beside a complete resolved schema. *)
  Theorem C90_crash_partial :
    forall (j : job R E) d uri schema ds before pre post,
      reliable io -> lossless buffered -> packages j d uri schema ds ->
      before (LoadModel.join_path (jb_output j) "manifest.yaml") = None ->
      snd (pack j) = app pre post ->
      let after := run_ops pre before in
      after (LoadModel.join_path (jb_output j) "manifest.yaml") <> None ->
      after (LoadModel.join_path (jb_output j) "resolved.yaml") = Some (yaml_text schema).
  Proof.
    intros j d uri schema ds before pre post Rel L P B H. rewrite (packages_run _ _ _ _ _ P Rel) in H.
    cbn [snd] in H. cbv zeta.
    fold (in_output j "resolved.yaml"). fold (in_output j "manifest.yaml").
    fold (in_output j "manifest.yaml") in B.
    assert (N : in_output j "resolved.yaml" <> in_output j "manifest.yaml") by apply names_differ.
    rewrite app_assoc in H.
    set (F1 := app [Mkdir (jb_output j)]
                (full_write buffered (in_output j "resolved.yaml") (yaml_text schema))) in H.
    set (F2 := full_write buffered (in_output j "manifest.yaml") _) in H.
    assert (T1 : forall o, In o F1 -> ~ touches (in_output j "manifest.yaml") o).
    { intros o [<-|I] T; [exact T|]. apply full_write_touch in I.
      destruct o as [x|g|g b]; cbn in I, T; congruence. }
    apply app_eq_app in H. destruct H as (l & [[H1 H2]|[H1 H2]]).
    - intros K. exfalso. apply K. rewrite untouched; [exact B|].
      intros o I. apply T1. rewrite H1. apply in_or_app. left. exact I.
    - intros _. rewrite H1, run_app, untouched.
      + unfold F1. rewrite run_app. apply full_write_result. exact L.
      + intros o I T.
        assert (I2 : In o F2) by (rewrite H2; apply in_or_app; left; exact I).
        apply full_write_touch in I2. destruct o as [x|g|g b]; cbn in I2, T; congruence.
  Qed.

  (* On a disk that may refuse anything: a successful run has created both files, each with
     all of its text but perhaps the part that was flushed last. *)
  Theorem C90_success_files_partial :
    forall (j : job R E) ds before, lossless buffered -> fst (pack j) = ROk ds ->
      exists d uri schema, packages j d uri schema ds /\
        let after := run_ops (snd (pack j)) before in
        holds buffered (after (in_output j "resolved.yaml")) (yaml_text schema) /\
        holds buffered (after (in_output j "manifest.yaml")) (yaml_text (publication_value (published d uri))).
  Proof.
    intros j ds before L H.
    destruct (package_cases j) as [(e & Q)|[(d & uri & schema & ds0 & dep & Q & _)|(d & uri & schema & ds0 & P & Q)]];
      [rewrite Q in H; discriminate H|rewrite Q in H; discriminate H|].
    exists d, uri, schema. cbv zeta in Q.
    destruct (write_yaml io buffered (in_output j "resolved.yaml") (yaml_text schema) [Mkdir (jb_output j)])
      as [ok1 done1] eqn:W1.
    destruct ok1; [|rewrite Q in H; discriminate H].
    destruct (write_yaml io buffered (in_output j "manifest.yaml") _ done1) as [ok2 done2] eqn:W2.
    destruct ok2; [|rewrite Q in H; discriminate H].
    rewrite Q in H |- *. cbn [fst snd] in H |- *. injection H as ->.
    split; [exact P|]. cbv zeta.
    destruct (write_done _ _ _ _ _ _ W1) as (o1 & -> & T1 & K1).
    destruct (write_done _ _ _ _ _ _ W2) as (o2 & -> & T2 & K2).
    rewrite !run_app. split.
    - rewrite (untouched _ o2); [apply K1; exact L|].
      intros o I T. apply T2 in I. pose proof (names_differ (jb_output j)) as N.
      unfold in_output in *. destruct o as [x|g|g b]; cbn in I, T; congruence.
    - apply K2. exact L.
  Qed.
End Package.
Print Assumptions C90_success.
Print Assumptions C90_success_files_partial.
Print Assumptions C90_succeeds.
Print Assumptions C90_files.
Print Assumptions C90_only_the_package.
Print Assumptions C90_refused_partial.
Print Assumptions C90_unversioned.
Print Assumptions C90_crash_partial.

(* ---------------------------------------------------------------- round trip *)

Lemma trim_end_idem p s : trim_end p (trim_end p s) = trim_end p s.
Proof.
  induction s as [|c s IH]; [reflexivity|]. cbn [trim_end].
  destruct (trim_end p s) as [|a t] eqn:T.
  - destruct (p c) eqn:P; [reflexivity|]. cbn. rewrite P. reflexivity.
  - cbn [trim_end] in *. rewrite IH. reflexivity.
Qed.

Lemma url_again up u : accepted up u -> url_text up (su_url u) u.
Proof.
  intros (s & H). unfold url_text in *.
  assert (K : su_url u = trim_end is_slash s).
  { unfold schema_url_new in H. cbv zeta in H.
    repeat match type of H with
           | context [match ?x with _ => _ end] => destruct x; try discriminate
           end.
    injection H as <-. reflexivity. }
  rewrite K. unfold schema_url_new in *. rewrite trim_end_idem. exact H.
Qed.

Lemma stability_again s : read_stability (show_stability s) = Some s.
Proof. destruct s; reflexivity. Qed.

(* What package writes is read back as the publication of the same registry: same
   URL, description, stability, URI and dependencies by URL, and without a warning. *)
Theorem C90_round_trip :
  forall url_parse d uri,
    accepted url_parse (df_url d) ->
    (forall x, In x (df_dependencies d) -> accepted url_parse (dep_url x)) ->
    try_from_file url_parse "manifest.yaml" (Some (Some (publication_value (published d uri))))
    = ROk (MPublication (mk_publication (df_url d) (df_description d)
             (map (fun x => mk_dependency (dep_url x) None) (df_dependencies d))
             (df_stability d) uri), []).
Proof.
  intros up d uri HU HD.
  apply C89_file. unfold published, publication_value. cbn [pb_url pb_description pb_dependencies pb_stability pb_uri].
  set (deps := map (fun x => mk_dependency (dep_url x) None) (df_dependencies d)).
  assert (FD : Forall2 (declares up) (map dependency_value deps) deps).
  { unfold deps. clear deps. induction (df_dependencies d) as [|x l IH]; cbn; constructor.
    - eapply by_url; [reflexivity| |left; reflexivity]. apply url_again. apply HD. left. reflexivity.
    - apply IH. intros y I. apply HD. right. exact I. }
  eexists.
  exists (mk_raw (Some "manifest/2.0") (Some (df_url d)) (df_description d) None None
            (map dependency_value deps) (df_stability d) (Some uri) None), [].
  split; [reflexivity|]. split; [|split].
  - apply C89_fields. eexists. split; [reflexivity|].
    cbn [rw_format rw_url rw_description rw_version rw_base rw_dependencies rw_stability rw_uri rw_old_uri].
    destruct (df_description d) as [s|];
      (destruct deps as [|dp dps]; cbn [map];
       (split; [right; eexists; split; [reflexivity|reflexivity]|]);
       (split; [first [left; split; [reflexivity|left; reflexivity]
                      |right; eexists; split; [reflexivity|reflexivity]]|]);
       (split; [left; split; [reflexivity|left; reflexivity]|]);
       (split; [left; split; [reflexivity|left; reflexivity]|]);
       (split; [right; eexists; split; [reflexivity|reflexivity]|]);
       (split; [left; split; [reflexivity|left; reflexivity]|]);
       (split; [right; eexists; eexists; split; [reflexivity|]; split; [reflexivity|];
                apply url_again; exact HU|]);
       (split; [first [right; reflexivity|left; split; reflexivity]|]);
       right; eexists; (split; [reflexivity|]); destruct (df_stability d); constructor).
  - exact (says_publication up (mk_raw (Some "manifest/2.0") (Some (df_url d)) (df_description d) None None
             (map dependency_value deps) (df_stability d) (Some uri) None)
             (df_url d) deps uri [] eq_refl eq_refl FD
             (loc_new (mk_raw (Some "manifest/2.0") (Some (df_url d)) (df_description d) None None
             (map dependency_value deps) (df_stability d) (Some uri) None) uri eq_refl)).
  - right. split; [discriminate|reflexivity].
Qed.
Print Assumptions C90_round_trip.

(* What a manifest file gives is accepted, so the round trip holds for every registry
   that was read from its manifest. *)
Theorem C90_round_trip_of_files :
  forall url_parse name content d ws uri,
    try_from_file url_parse name content = ROk (MDefinition d, ws) ->
    try_from_file url_parse "manifest.yaml" (Some (Some (publication_value (published d uri))))
    = ROk (MPublication (published d uri), []).
Proof.
  intros up name content d ws uri H. apply C89_file in H. destruct H as (v & r & ds & _ & Rd & S' & _).
  assert (TV : forall n x u, try_from_name_version up n x = Ok u -> accepted up u).
  { intros n x u. unfold try_from_name_version. destruct (_ || _); [discriminate|].
    destruct (_ || _); intros K; eexists; exact K. }
  inversion S' as [u' deps uri' ws' A B C D EQ1 EQ2|u' deps ws' A B C EQ1 EQ2]; subst.
  apply (C90_round_trip up (mk_definition u' (rw_description r) deps (rw_stability r)) uri); cbn [df_url df_dependencies].
  - apply C89_fields in Rd. destruct Rd as (m & _ & _ & _ & _ & _ & _ & _ & U & _).
    inversion B as [u2 U2|b x u2 U2 Bb V N]; subst.
    + destruct U as [[U _]|(s & u & U & _ & W)]; [congruence|]. rewrite U in U2. injection U2 as ->.
      exists s. exact W.
    + eapply TV, N.
  - clear -C TV. induction C as [|a b l l' X _ IH]; intros x [].
    + subst x. destruct X as [X|[_ X]]; inversion X; subst; cbn [dep_url]; first [eexists; eassumption|eapply TV; eassumption].
    + auto.
Qed.
Print Assumptions C90_round_trip_of_files.

(* ---------------------------------------------------------------- finding it again *)

(* A package opened as a local directory: the URI is looked for in that directory. *)
Theorem C90_found_in_directory :
  forall kind dir p, kind (pb_uri p) = PRelative ->
    VdirModel.parse_vdir dir = Some (VdirModel.LocalFolder dir) ->
    resolved_uri kind false (VdirModel.LocalFolder dir) (Some (MPublication p))
    = Some (Some (VdirModel.LocalFolder (dir ++ "/" ++ pb_uri p))).
Proof.
  intros kind dir p K V. unfold resolved_uri. rewrite K. unfold VdirModel.reparse.
  cbn [VdirModel.show_vdir]. rewrite V. reflexivity.
Qed.
Print Assumptions C90_found_in_directory.

Lemma rfind_last s c t : rfind_char c t = None ->
  rfind_char c (s ++ String c t) = Some (String.length s).
Proof.
  intros H. induction s as [|a s IH]; cbn [append rfind_char String.length].
  - rewrite H, Ascii.eqb_refl. reflexivity.
  - rewrite IH. reflexivity.
Qed.

Lemma parent_of dir name :
  trim_end is_slash dir = dir -> dir <> "" ->
  trim_end is_slash name = name -> name <> "" -> rfind_char "/"%char name = None ->
  path_parent (dir ++ "/" ++ name) = Some dir.
Proof.
  intros D DN N NN NS. unfold path_parent.
  assert (T : forall a, trim_end is_slash (a ++ name) = a ++ name).
  { intros a. induction a as [|c a IH]; [exact N|]. cbn [append trim_end]. rewrite IH.
    destruct (a ++ name) as [|x y] eqn:E; [|reflexivity].
    destruct a; cbn in E; [congruence|discriminate]. }
  replace (dir ++ "/" ++ name) with ((dir ++ "/") ++ name) by apply str_app_assoc.
  rewrite T. rewrite str_app_assoc. change ("/" ++ name) with (String "/"%char name).
  destruct (String.eqb_spec (dir ++ String "/"%char name) "") as [E|_].
  { destruct dir; [congruence|discriminate]. }
  rewrite rfind_last by exact NS. cbv zeta.
  assert (K : forall a b, str_take (String.length a) (a ++ b) = a).
  { intros a b. induction a as [|c a IH]; [destruct b; reflexivity|]. cbn. rewrite IH. reflexivity. }
  rewrite K, D. destruct (String.eqb_spec dir "") as [E|_]; [congruence|reflexivity].
Qed.

(* A package opened by its manifest file, locally or by URL: the URI is looked for
   beside the manifest. *)
Theorem C90_found_beside_manifest :
  forall kind dir name p, kind (pb_uri p) = PRelative ->
    trim_end is_slash dir = dir -> dir <> "" ->
    trim_end is_slash name = name -> name <> "" -> rfind_char "/"%char name = None ->
    let file := dir ++ "/" ++ name in
    (VdirModel.parse_vdir file = Some (VdirModel.LocalFolder file) ->
     resolved_uri kind true (VdirModel.LocalFolder file) (Some (MPublication p))
     = Some (Some (VdirModel.LocalFolder (dir ++ "/" ++ pb_uri p)))) /\
    (VdirModel.parse_vdir file = Some (VdirModel.RemoteFile file) ->
     resolved_uri kind true (VdirModel.RemoteFile file) (Some (MPublication p))
     = Some (Some (VdirModel.RemoteFile (dir ++ "/" ++ pb_uri p)))).
Proof.
  intros kind dir name p K D DN N NN NS. cbv zeta. unfold resolved_uri. rewrite K.
  unfold VdirModel.reparse. cbn [VdirModel.show_vdir].
  split; intros V; rewrite V; cbn [VdirModel.map_sub_folder]; rewrite (parent_of dir name) by assumption; reflexivity.
Qed.
Print Assumptions C90_found_beside_manifest.

(* A package in a sub-folder of a git repository or of an archive: the URI is looked
   for in that sub-folder, at the same revision. *)
Theorem C90_found_in_sub_folder :
  forall kind location ref sub p, kind (pb_uri p) = PRelative ->
    (VdirModel.reparse (VdirModel.GitRepo location ref (Some sub))
       = Some (VdirModel.GitRepo location ref (Some sub)) ->
     resolved_uri kind false (VdirModel.GitRepo location ref (Some sub)) (Some (MPublication p))
     = Some (Some (VdirModel.GitRepo location ref (Some (sub ++ "/" ++ pb_uri p))))) /\
    (VdirModel.reparse (VdirModel.LocalArchive location (Some sub))
       = Some (VdirModel.LocalArchive location (Some sub)) ->
     resolved_uri kind false (VdirModel.LocalArchive location (Some sub)) (Some (MPublication p))
     = Some (Some (VdirModel.LocalArchive location (Some (sub ++ "/" ++ pb_uri p))))) /\
    (VdirModel.reparse (VdirModel.RemoteArchive location (Some sub))
       = Some (VdirModel.RemoteArchive location (Some sub)) ->
     resolved_uri kind false (VdirModel.RemoteArchive location (Some sub)) (Some (MPublication p))
     = Some (Some (VdirModel.RemoteArchive location (Some (sub ++ "/" ++ pb_uri p))))).
Proof.
  intros kind location ref sub p K.
  assert (NE : forall s t, String.eqb (s ++ "/" ++ t) "" = false).
  { intros s t. destruct s; reflexivity. }
  split; [|split]; intros V; unfold resolved_uri; rewrite K, V; cbn [VdirModel.map_sub_folder];
    unfold VdirModel.map_option; cbn [opt_get]; rewrite NE; reflexivity.
Qed.
Print Assumptions C90_found_in_sub_folder.

(* A definition manifest never points to a resolved registry, and an absolute URI is
   used as it is wherever the manifest lies. *)
Theorem C90_absolute :
  forall kind was_file v p d,
    resolved_uri kind was_file v (Some (MDefinition d)) = Some None /\
    (kind (pb_uri p) <> PRelative ->
     resolved_uri kind was_file v (Some (MPublication p)) = Some (VdirModel.parse_vdir (pb_uri p))).
Proof.
  intros kind was_file v p d. split; [reflexivity|]. intros N. unfold resolved_uri.
  destruct (kind (pb_uri p)); [reflexivity|congruence|reflexivity|reflexivity].
Qed.
Print Assumptions C90_absolute.

(* ---------------------------------------------------------------- refuted claims *)

(* Opened as `manifest.yaml` from its own directory, a package is looked for at the
   root of the file system. *)
Theorem C90_bare_manifest_refuted :
  ~ (forall kind name p w, kind (pb_uri p) = PRelative ->
       resolved_uri kind true (VdirModel.LocalFolder name) (Some (MPublication p)) = Some (Some w) ->
       rfind_char "/"%char name = None ->
       w = VdirModel.LocalFolder (pb_uri p) \/ w = VdirModel.LocalFolder ("./" ++ pb_uri p)).
Proof.
  intros H.
  destruct (H sample_kind "manifest.yaml" (published sample_definition "resolved.yaml")
              (VdirModel.LocalFolder "/resolved.yaml") eq_refl eq_refl eq_refl) as [K|K]; discriminate K.
Qed.
Print Assumptions C90_bare_manifest_refuted.

(* A package at the root of a git repository: the URI is looked for outside the clone,
   at the root of the file system. *)
Theorem C90_git_root_refuted :
  ~ (forall kind url ref p clone w, kind (pb_uri p) = PRelative ->
       resolved_uri kind false (VdirModel.GitRepo url ref None) (Some (MPublication p)) = Some (Some w) ->
       forall u r sub, w = VdirModel.GitRepo u r (Some sub) -> starts_with clone (clone_path clone sub) = true).
Proof.
  intros H.
  specialize (H sample_kind "https://github.com/acme/registry.git" None
                (published sample_definition "resolved.yaml") "/tmp/clone" _ eq_refl eq_refl _ _ _ eq_refl).
  discriminate H.
Qed.
Print Assumptions C90_git_root_refuted.

(* A publication whose URI cannot be read is not reported: it has no resolved registry
   and is loaded like a definition. *)
Theorem C90_unreadable_uri_refuted :
  ~ (forall kind was_file v p, kind (pb_uri p) = PUrl ->
       resolved_uri kind was_file v (Some (MPublication p)) <> Some None).
Proof.
  intros H. apply (H sample_kind false (VdirModel.LocalFolder "out")
    (published sample_definition ("http://a/" ++ String "010"%char "b")) eq_refl). reflexivity.
Qed.
Print Assumptions C90_unreadable_uri_refuted.

(* A refused registry may leave a new output directory behind. *)
Theorem C90_directory_refuted :
  ~ (forall io buffered yaml_text (j : job unit string) e, reliable io ->
       fst (package io buffered yaml_text j) = RErr e -> snd (package io buffered yaml_text j) = []).
Proof.
  intros H. specialize (H (fun _ _ => true) sample_buffer sample_text (sample_job sample_unversioned)).
  cbv in H. specialize (H _ (fun _ _ => eq_refl) eq_refl). discriminate H.
Qed.
Print Assumptions C90_directory_refuted.

(* Packaging over an older package is not safe against interruption: the old manifest
   lies beside the new, perhaps incomplete, schema. *)
Theorem C90_overwrite_refuted :
  ~ (forall (j : job unit string) d uri schema ds before pre post,
       packages j d uri schema ds ->
       before (LoadModel.join_path (jb_output j) "manifest.yaml") = Some "old manifest" ->
       before (LoadModel.join_path (jb_output j) "resolved.yaml") = Some "old schema" ->
       snd (package (fun _ _ => true) sample_buffer sample_text j) = app pre post ->
       let after := run_ops pre before in
       after (LoadModel.join_path (jb_output j) "manifest.yaml") = Some "old manifest" ->
       after (LoadModel.join_path (jb_output j) "resolved.yaml") = Some "old schema").
Proof.
  intros H.
  specialize (H (sample_job sample_definition) sample_definition "resolved.yaml" (JStr "schema") []
    (fun f => if String.eqb f "out/manifest.yaml" then Some "old manifest"
              else if String.eqb f "out/resolved.yaml" then Some "old schema" else None)
    [Mkdir "out"; CreateFile "out/resolved.yaml"; AppendTo "out/resolved.yaml" "sc"]
    (skipn 3 (snd (package (fun _ _ => true) sample_buffer sample_text (sample_job sample_definition))))).
  assert (P : packages (sample_job sample_definition) sample_definition "resolved.yaml" (JStr "schema") []).
  { split; [reflexivity|]. split; [reflexivity|]. exists [], tt, [], [].
    split; [reflexivity|]. split; [reflexivity|]. split; [reflexivity|]. split; [reflexivity|].
    split; [reflexivity|]. split; [intros x []|].
    intros x [<-|[]] K. vm_compute in K. discriminate K. }
  specialize (H P eq_refl eq_refl). cbv zeta in H.
  assert (K : snd (package (fun _ _ => true) sample_buffer sample_text (sample_job sample_definition)) =
    app [Mkdir "out"; CreateFile "out/resolved.yaml"; AppendTo "out/resolved.yaml" "sc"]
    (skipn 3 (snd (package (fun _ _ => true) sample_buffer sample_text (sample_job sample_definition)))))
    by reflexivity.
  specialize (H K eq_refl). discriminate H.
Qed.
Print Assumptions C90_overwrite_refuted.

(* The last write of a file is not checked: on a full disk the command reports success
   and leaves a truncated schema. *)
Theorem C90_full_disk_refuted :
  ~ (forall io (j : job unit string) ds before, lossless sample_buffer ->
       fst (package io sample_buffer sample_text j) = ROk ds ->
       exists schema, run_ops (snd (package io sample_buffer sample_text j)) before
         (LoadModel.join_path (jb_output j) "resolved.yaml") = Some (sample_text schema) /\
         exists r, jb_as_v2 j r = ROk schema).
Proof.
  intros H.
  specialize (H (fun _ o => match o with AppendTo f b => String.eqb b "sc" || String.eqb b "ma" | _ => true end)
                (sample_job sample_definition) [] (fun _ => None)).
  assert (L : lossless sample_buffer).
  { intros s. unfold sample_buffer. destruct s as [|a [|b s]]; reflexivity. }
  specialize (H L eq_refl). destruct H as (schema & A & r & B).
  cbn in B. injection B as <-. vm_compute in A. discriminate A.
Qed.
Print Assumptions C90_full_disk_refuted.

(* A dependency given by a plain name only has no version, so a registry with one
   cannot be packaged. *)
Theorem C90_by_name_partial :
  forall url_parse host dirs v d, UrlSpec.reads_plain_urls url_parse ->
    UrlSpec.plain_host host -> Forall UrlSpec.plain_segment dirs ->
    declares_name url_parse v d ->
    (forall m, v = JObj m -> slookup "name" m = Some (JStr (host ++ UrlSpec.path_of dirs))) ->
    unversioned d.
Proof.
  intros up host dirs v d RP PH PD D N. inversion D as [m n p w u A1 A2 A3 A4 A5 A6]; subst.
  specialize (N m eq_refl). assert (n = host ++ UrlSpec.path_of dirs) by congruence. subst n.
  assert (PV : UrlSpec.plain_segment "unknown").
  { split; [discriminate|]. split; [discriminate|]. split; [discriminate|reflexivity]. }
  destruct (PropUrl.C20_build_then_read_partial up host dirs "unknown" RP PH PD PV) as (u' & B & _ & V & _).
  unfold url_of in A6. assert (u' = u) by congruence. subst u'. exact V.
Qed.
Print Assumptions C90_by_name_partial.

(* non-vacuity *)
Example C90_case :
  packages (sample_job sample_definition) sample_definition "resolved.yaml" (JStr "schema") [] /\
  fst (package (fun _ _ => true) sample_buffer sample_text (sample_job sample_definition)) = ROk [] /\
  run_ops (snd (package (fun _ _ => true) sample_buffer sample_text (sample_job sample_definition)))
    (fun _ => None) "out/manifest.yaml" = Some "manifest https://acme.com/schemas/1.0.0" /\
  lossless sample_buffer /\ accepted UrlSpec.simple_parser acme /\ accepted UrlSpec.simple_parser otel.
Proof.
  split; [|split; [reflexivity|split; [reflexivity|]]].
  - split; [reflexivity|]. split; [reflexivity|]. exists [], tt, [], [].
    split; [reflexivity|]. split; [reflexivity|]. split; [reflexivity|]. split; [reflexivity|].
    split; [reflexivity|]. split; [intros x []|].
    intros x [<-|[]] K. vm_compute in K. discriminate K.
  - split; [intros s; unfold sample_buffer; destruct s as [|a [|b s]]; reflexivity|].
    split; [exists "https://acme.com/schemas/1.0.0"; reflexivity|].
    exists "https://opentelemetry.io/schemas/1.37.0"; reflexivity.
Qed.
Example C90_refused_case :
  exists d, fst (package (fun _ _ => true) sample_buffer sample_text (sample_job sample_unversioned))
            = RErr (PUnversioned d) /\ unversioned d.
Proof. eexists. split; [reflexivity|]. reflexivity. Qed.
Example C90_found_case :
  resolved_uri sample_kind false (VdirModel.LocalFolder "out")
    (Some (MPublication (published sample_definition "resolved.yaml")))
  = Some (Some (VdirModel.LocalFolder "out/resolved.yaml")) /\
  resolved_uri sample_kind true (VdirModel.RemoteFile "https://acme.com/reg/manifest.yaml")
    (Some (MPublication (published sample_definition "resolved.yaml")))
  = Some (Some (VdirModel.RemoteFile "https://acme.com/reg/resolved.yaml")).
Proof. split; reflexivity. Qed.
