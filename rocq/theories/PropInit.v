(* C118: the templates of diagnostics that `weaver diagnostic init` writes, and what is used of them. *)
From Coq Require Import String Ascii Bool Arith Lia List.
From Verif Require Import Base SemTypes ArchiveModel InitModel InitSpec InitProofs InitProofs2.
From Verif Require VdirModel.
From Verif Require ForgeModel ForgeSpec ArchiveProofs PropForge.
Import ForgeModel ForgeSpec.
Import ListNotations.
Open Scope list_scope.

Lemma init_run : forall entries base target t,
  init_command entries base target t =
  match run (all_ops base target entries) t with
  | (t', true) => (t', Ok 0)
  | (t', false) => (t', Err "InitDiagnosticError"%string)
  end.
Proof. intros. unfold init_command. rewrite extract_all. reflexivity. Qed.

(* If the command succeeds, the templates of the target are in the directory with the content of the program, every
   other file and directory is as before, and nothing new is there but directories on the way to the templates. *)
Theorem C118_written_partial : forall entries base target t t' code,
  own_names entries -> tops_are_directories entries -> target = ""%string \/ simple_name target ->
  init_command entries base target t = (t', Ok code) ->
  code = 0 /\
  (forall q c, template entries base target q c -> node_at t' q = Some (NFile c)) /\
  (forall q, needed entries base target q -> node_at t' q = Some NDir) /\
  (forall q, (forall c, ~ template entries base target q c) ->
     (forall n, node_at t q = Some n -> node_at t' q = Some n) /\
     (node_at t q = None -> ~ needed entries base target q -> node_at t' q = None)).
Proof.
  intros entries base target t t' code O T Ht H. rewrite init_run in H.
  destruct (run (all_ops base target entries) t) as [t1 []] eqn:R; [|discriminate H]. injection H as <- <-.
  destruct (run_done _ _ _ R (all_nodup entries base target O) (all_proper entries base target T Ht)) as [A B].
  split; [reflexivity|]. split; [|split].
  - intros q c Hq. apply A. apply (all_in_file entries base target T Ht). exact Hq.
  - intros q Hq. apply (all_needed entries base target T Ht) in Hq as (d & Hd & W). exact (B d q Hd W).
  - intros q Hq. destruct (run_other _ _ _ _ q R) as [C D].
    { intros c Hc. apply (all_in_file entries base target T Ht) in Hc. exact (Hq c Hc). }
    split; [exact C|]. intros N Nn. destruct (D N) as [E|(_ & E)]; [exact E|].
    exfalso. apply Nn. apply (all_needed entries base target T Ht). exact E.
Qed.
Print Assumptions C118_written_partial.

(* It succeeds exactly when no file is where a directory is needed and no directory where a template goes. *)
Theorem C118_when : forall entries base target t,
  own_names entries -> tops_are_directories entries -> target = ""%string \/ simple_name target ->
  (snd (init_command entries base target t) = Ok 0 <->
   (forall q c, needed entries base target q -> node_at t q <> Some (NFile c)) /\
   (forall q c, template entries base target q c -> node_at t q <> Some NDir)).
Proof.
  intros entries base target t O T Ht. rewrite init_run. split.
  - destruct (run (all_ops base target entries) t) as [t1 []] eqn:R; [|discriminate]. intros _.
    destruct (run_needs _ _ _ R) as [A B]. split.
    + intros q c Hq. apply (all_needed entries base target T Ht) in Hq as (d & Hd & W). exact (A d q c Hd W).
    + intros q c Hq. apply (B q c). apply (all_in_file entries base target T Ht). exact Hq.
  - intros [A B]. destruct (run_succeeds (all_ops base target entries) t []) as (t' & R).
    + intros d q c Hd W. apply A. apply (all_needed entries base target T Ht). eauto.
    + intros q c Hq. apply (B q c). apply (all_in_file entries base target T Ht). exact Hq.
    + intros d q c Hd W. exact (all_apart entries base target O T Ht d q c Hd W).
    + intros d [].
    + intros a q c b E. exact (all_ordered entries base target T Ht a q c b E).
    + rewrite R. reflexivity.
Qed.
Print Assumptions C118_when.

(* Whatever happens, also an error half-way: a file on disk is one of before or a whole template, nothing is removed
   and no file of the user other than those named like a template is changed. *)
Theorem C118_safe : forall entries base target t t' r,
  own_names entries -> tops_are_directories entries -> target = ""%string \/ simple_name target ->
  init_command entries base target t = (t', r) ->
  (forall q c, node_at t' q = Some (NFile c) -> node_at t q = Some (NFile c) \/ template entries base target q c) /\
  (forall q n, (forall c, ~ template entries base target q c) -> node_at t q = Some n -> node_at t' q = Some n) /\
  (forall q, node_at t q <> None -> node_at t' q <> None).
Proof.
  intros entries base target t t' r O T Ht H. rewrite init_run in H.
  destruct (run (all_ops base target entries) t) as [t1 b] eqn:R.
  assert (t1 = t') as -> by (destruct b; congruence). clear H. split; [|split].
  - intros q c Hq. destruct (run_file _ _ _ _ _ _ R Hq) as [G|G]; [left; exact G|]. right.
    apply (all_in_file entries base target T Ht). exact G.
  - intros q n Hq Hn. destruct (run_other _ _ _ _ q R) as [C _]; [|exact (C n Hn)].
    intros c Hc. apply (all_in_file entries base target T Ht) in Hc. exact (Hq c Hc).
  - intros q Hq. destruct (run_kinds _ _ _ _ R) as [A B]. destruct (node_at t q) as [[|c]|] eqn:E; [| |congruence].
    + rewrite (A q E). discriminate.
    + destruct (B q c E) as (c' & ->). discriminate.
Qed.
Print Assumptions C118_safe.

(* Doing it a second time succeeds and changes nothing. *)
Theorem C118_again : forall entries base target t t',
  own_names entries -> tops_are_directories entries -> target = ""%string \/ simple_name target ->
  init_command entries base target t = (t', Ok 0) ->
  exists t2, init_command entries base target t' = (t2, Ok 0) /\ forall q, node_at t2 q = node_at t' q.
Proof.
  intros entries base target t t' O T Ht H.
  destruct (C118_written_partial _ _ _ _ _ _ O T Ht H) as (_ & A & B & C).
  assert (S : snd (init_command entries base target t') = Ok 0).
  { apply C118_when; [exact O|exact T|exact Ht|]. split; intros q c Hq; [rewrite (B q Hq)|rewrite (A q c Hq)]; discriminate. }
  destruct (init_command entries base target t') as [t2 r] eqn:E. cbn [snd] in S. subst r. exists t2. split; [reflexivity|].
  destruct (C118_written_partial _ _ _ _ _ _ O T Ht E) as (_ & A2 & B2 & C2).
  intros q. destruct (node_at t2 q) as [n|] eqn:E2.
  - destruct n as [|c].
    + destruct (node_at t' q) as [[|c']|] eqn:E1; [reflexivity| |].
      * destruct (run_kinds (all_ops base target entries) t' t2 true) as [_ K].
        { rewrite init_run in E. destruct (run _ t') as [u []]; congruence. }
        destruct (K q c' E1) as (c2 & K2). congruence.
      * destruct (C118_safe _ _ _ _ _ _ O T Ht E) as (_ & _ & _).
        assert (Nt : forall c, ~ template entries base target q c) by (intros c Hc; rewrite (A q c Hc) in E1; discriminate).
        destruct (C2 q Nt) as [_ D]. rewrite D in E2; [discriminate E2|exact E1|].
        intros Hn. rewrite (B q Hn) in E1. discriminate.
    + destruct (C118_safe _ _ _ _ _ _ O T Ht E) as (D & _ & _). destruct (D q c E2) as [G|G]; [symmetry; exact G|].
      symmetry. exact (A q c G).
  - destruct (node_at t' q) as [n|] eqn:E1; [|reflexivity].
    destruct (C118_safe _ _ _ _ _ _ O T Ht E) as (_ & _ & D). exfalso. apply (D q); [congruence|exact E2].
Qed.
Print Assumptions C118_again.

(* ------------------------------------------------------------ what is used *)

Lemma below_app : forall d p, below d (d ++ p) = Some p.
Proof. induction d as [|a d IH]; intros p; [reflexivity|]. cbn. rewrite String.eqb_refl. apply IH. Qed.

Lemma below_some : forall d q p, below d q = Some p -> q = d ++ p.
Proof.
  induction d as [|a d IH]; intros q p H; [injection H as ->; reflexivity|]. destruct q as [|b q]; [discriminate H|].
  cbn in H. destruct (String.eqb_spec a b) as [->|]; [|discriminate H]. cbn. f_equal. apply IH. exact H.
Qed.

Lemma entry_at_in : forall t q n, entry_at t q = Some n -> exists m, In (q, m) t.
Proof.
  induction t as [|[k m] t IH]; intros q n H; cbn in H; [discriminate H|].
  destruct (ArchiveProofs.names_eqb_spec k q) as [->|N].
  - exists m. left. reflexivity.
  - destruct (IH _ _ H) as (m' & H'). exists m'. right. exact H'.
Qed.

(* The files that are listed for a local directory are those that are there. *)
Theorem C118_listed : forall t dir p,
  In p (list_files (Local dir) t) <-> exists c, node_at t (dir ++ p) = Some (NFile c).
Proof.
  intros t dir p. cbn [list_files]. unfold local_files. rewrite nodup_In, in_flat_map. split.
  - intros ((q & m) & H & G). cbn [fst] in G. destruct (below dir q) as [p'|] eqn:E; [|destruct G].
    destruct (node_at t q) as [[|c]|] eqn:N; [destruct G| |destruct G]. destruct G as [->|[]].
    apply below_some in E as ->. eauto.
  - intros (c & H). 
    assert (E : exists m, In (dir ++ p, m) t).
    { unfold node_at in H. destruct (dir ++ p) as [|x r]; [discriminate H|]. exact (entry_at_in _ _ _ H). }
    destruct E as (m & E). exists (dir ++ p, m). split; [exact E|]. cbn [fst]. rewrite below_app, H. left. reflexivity.
Qed.
Print Assumptions C118_listed.

(* After the command the templates of a target are loaded from the directory, with the content they have in the
   program; if nothing was there before, these and no others are loaded and listed. *)
Theorem C118_used : forall entries base target t t' name es,
  own_names entries -> tops_are_directories entries -> target = ""%string \/ simple_name target ->
  init_command entries base target t = (t', Ok 0) ->
  In (EDir name es) entries -> asked target name ->
  exists l, new_loader entries t' base name = Ok l /\
    (forall p c, In (p, c) (flat_map files_below es) -> load l t' p = Ok (Some c) /\ In p (list_files l t')) /\
    ((forall p, node_at t (base ++ name :: p) = None) ->
     forall p c, load l t' p = Ok (Some c) <-> load (Embedded name es) t' p = Ok (Some c)).
Proof.
  intros entries base target t t' name es O T Ht H He Ha.
  destruct (C118_written_partial _ _ _ _ _ _ O T Ht H) as (_ & A & B & C).
  exists (Local (base ++ [name])).
  assert (Hd : node_at t' (base ++ [name]) = Some NDir).
  { apply B. split; [destruct base; discriminate|]. exists name, es, [name], []. split; [exact He|]. split; [exact Ha|].
    split; [constructor|]. rewrite app_nil_r. reflexivity. }
  split; [unfold new_loader; rewrite Hd; reflexivity|].
  assert (Ap : forall p, (base ++ [name]) ++ p = base ++ name :: p) by (intros p; rewrite <- app_assoc; reflexivity).
  assert (G : forall p c, In (p, c) (flat_map files_below es) -> node_at t' ((base ++ [name]) ++ p) = Some (NFile c)).
  { intros p c Hp. rewrite Ap. apply A. exists name, es, p. auto. }
  split.
  - intros p c Hp. split; [cbn [load]; rewrite (G p c Hp); reflexivity|]. apply C118_listed. eauto.
  - intros Nt p c.
    assert (No : NoDup (map fst (flat_map files_below es))).
    { apply own_files. inversion O as [l' N S E]; subst. exact (S name es He). }
    cbn [load]. split.
    + intros Hl. destruct (node_at t' ((base ++ [name]) ++ p)) as [[|c']|] eqn:E; try discriminate Hl.
      injection Hl as ->. f_equal. apply (PropForge.C60_load [name] es No). rewrite Ap in E.
      destruct (C118_safe _ _ _ _ _ _ O T Ht H) as (D & _). destruct (D _ _ E) as [F|F]; [rewrite (Nt p) in F; discriminate F|].
      destruct F as (name' & es' & p' & He' & _ & Hp & E'). apply app_inv_head in E'. injection E' as <- <-.
      inversion O as [l' N S E']; subst.
      assert (F : EDir name es = EDir name es') by (apply (same_name entries); [exact N|exact He|exact He'|reflexivity]).
      injection F as <-. exact Hp.
    + intros Hl. injection Hl as Hl. apply (PropForge.C60_load [name] es No) in Hl. rewrite (G p c Hl). reflexivity.
Qed.
Print Assumptions C118_used.

(* Where templates come from: all from the local directory if there is one for the target, else all from the
   program; a target that neither has is refused. *)
Theorem C118_source : forall entries t local target,
  own_names entries ->
  (new_loader entries t local target = Ok (Local (local ++ [target])) <-> node_at t (local ++ [target]) <> None) /\
  (forall es, new_loader entries t local target = Ok (Embedded target es) <->
     node_at t (local ++ [target]) = None /\ In (EDir target es) entries) /\
  ((exists e, new_loader entries t local target = Err e) <->
     node_at t (local ++ [target]) = None /\ forall es, ~ In (EDir target es) entries).
Proof.
  intros entries t local target O. inversion O as [l' N S E]; subst l'.
  assert (G : forall es, get_dir entries target = Some es <-> In (EDir target es) entries).
  { intros es. clear S O. induction entries as [|n r IH]; cbn [get_dir]; [split; [discriminate|intros []]|].
    cbn [map] in N. inversion N as [|y z Hy Hz]; subst. specialize (IH Hz). destruct n as [x c|x es'].
    - rewrite IH. split; [intros H; right; exact H|intros [H|H]; [discriminate H|exact H]].
    - destruct (String.eqb_spec x target) as [->|Nx].
      + split; [intros H; injection H as <-; left; reflexivity|]. intros [H|H]; [injection H as <-; reflexivity|].
        exfalso. apply Hy. apply (in_map (fun n => match n with EFile x _ => x | EDir x _ => x end)) in H. exact H.
      + rewrite IH. split; [intros H; right; exact H|]. intros [H|H]; [congruence|exact H]. }
  unfold new_loader. destruct (node_at t (local ++ [target])) as [n|] eqn:Hn.
  - split; [split; [discriminate|reflexivity]|]. split; [intros es; split; [discriminate|intros [H _]; discriminate H]|].
    split; [intros (e & H); discriminate H|intros [H _]; discriminate H].
  - destruct (get_dir entries target) as [es0|] eqn:Hg.
    + split; [split; [discriminate|congruence]|]. split.
      * intros es. rewrite <- G. split; [intros H; injection H as <-; auto|]. intros [_ H]. congruence.
      * split; [intros (e & H); discriminate H|]. intros [_ H]. exfalso. apply (H es0). apply G. reflexivity.
    + split; [split; [discriminate|congruence]|]. split.
      * intros es. rewrite <- G. split; [discriminate|]. intros [_ H]. discriminate H.
      * split; [|eauto]. intros _. split; [reflexivity|]. intros es H. apply G in H. discriminate H.
Qed.
Print Assumptions C118_source.

(* ------------------------------------------------------------ cases *)

Ltac own_step :=
  constructor;
  [repeat (constructor; [cbn; intuition discriminate|]); constructor
  |let H := fresh "H" in intros ? ? H; cbn in H;
   repeat (destruct H as [H|H]; [first [discriminate H | injection H as <- <-]|]); try (destruct H)].

Lemma defaults_own : own_names defaults.
Proof. repeat own_step. Qed.

Lemma simple : forall n, (n = "ansi" \/ n = "json" \/ n = "xml")%string -> simple_name n.
Proof.
  intros n [-> | [-> | ->]]; (split; [discriminate|split; [discriminate|split; [discriminate|]]]); intros a b E;
    destruct a as [|? [|? [|? [|? [|? a]]]]]; cbn in E; discriminate E.
Qed.

Lemma defaults_tops : tops_are_directories defaults.
Proof.
  intros e H. cbn in H. decompose [or] H; subst; try contradiction; do 2 eexists; (split; [reflexivity|apply simple; auto]).
Qed.

Example C118_case : let disk := [(["templates"], NDir); (["templates"; "json"], NDir);
                                 (["templates"; "json"; "weaver.yaml"], NFile "mine"); (["notes"], NFile "keep")]%string in
  snd (init_command defaults ["templates"]%string "json" disk) = Ok 0 /\
  node_at (fst (init_command defaults ["templates"]%string "json" disk)) ["templates"; "json"; "lib"; "macros.j2"]%string
    = Some (NFile "macros") /\
  template defaults ["templates"]%string "json" ["templates"; "json"; "lib"; "macros.j2"]%string "macros" /\
  needed defaults ["templates"]%string "json" ["templates"; "json"; "lib"]%string.
Proof.
  split; [reflexivity|]. split; [reflexivity|]. split.
  - exists "json"%string. eexists. exists ["lib"; "macros.j2"]%string. split; [right; left; reflexivity|].
    split; [right; reflexivity|]. split; [|reflexivity]. cbn. auto.
  - split; [discriminate|]. exists "json"%string. eexists. exists ["json"; "lib"]%string, []. split; [right; left; reflexivity|].
    split; [right; reflexivity|]. split; [|reflexivity]. eapply dir_below; [|apply dir_here]. cbn. auto.
Qed.

(* Full claim "success means the templates of the target are there": false.  A target the program does not know
   succeeds and writes nothing. *)
Theorem C118_unknown_refuted : forall entries base target t,
  tops_are_directories entries -> simple_name target ->
  (forall es, ~ In (EDir target es) entries) ->
  init_command entries base target t = (t, Ok 0).
Proof.
  intros entries base target t T Ht Hn. rewrite init_run.
  assert (E : all_ops base target entries = []).
  { unfold all_ops. replace (filter (taken target) entries) with (@nil enode); [reflexivity|]. symmetry.
    destruct (filter (taken target) entries) as [|n r] eqn:F; [reflexivity|].
    assert (H : In n (filter (taken target) entries)) by (rewrite F; left; reflexivity).
    apply (taken_asked entries target T (or_intror Ht)) in H as (name & es & -> & H & [->|<-]).
    - destruct Ht as [Ht _]. congruence.
    - destruct (Hn es H). }
  rewrite E. reflexivity.
Qed.
Print Assumptions C118_unknown_refuted.

Example C118_unknown_case : init_command defaults ["templates"]%string "xml" [] = ([], Ok 0).
Proof.
  apply C118_unknown_refuted; [exact defaults_tops|apply simple; auto|]. intros es H. cbn in H. intuition discriminate.
Qed.

(* Full claim "the user's own templates are kept": false.  One that was changed is silently replaced. *)
Theorem C118_customised_refuted : exists disk disk' q,
  node_at disk q = Some (NFile "mine"%string) /\
  init_command defaults ["templates"]%string "" disk = (disk', Ok 0) /\
  node_at disk' q = Some (NFile "json config"%string).
Proof.
  exists [(["templates"], NDir); (["templates"; "json"], NDir); (["templates"; "json"; "weaver.yaml"], NFile "mine")]%string.
  eexists. exists ["templates"; "json"; "weaver.yaml"]%string. split; [reflexivity|]. split; reflexivity.
Qed.
Print Assumptions C118_customised_refuted.

(* Full claim "what is not overridden comes from the program": false.  With one local file for a target none of the
   others is found. *)
Theorem C118_override_refuted : exists disk l,
  new_loader defaults disk ["templates"]%string "json" = Ok l /\
  load l disk ["weaver.yaml"]%string = Ok (Some "mine"%string) /\
  load l disk ["errors.json.j2"]%string = Ok None /\
  (exists es, In (EDir "json" es) defaults /\ load (Embedded "json" es) disk ["errors.json.j2"]%string = Ok (Some "json errors"%string)).
Proof.
  exists [(["templates"], NDir); (["templates"; "json"], NDir); (["templates"; "json"; "weaver.yaml"], NFile "mine")]%string.
  eexists. split; [reflexivity|]. split; [reflexivity|]. split; [reflexivity|].
  eexists. split; [right; left; reflexivity|]. reflexivity.
Qed.
Print Assumptions C118_override_refuted.
