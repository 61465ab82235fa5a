(* C114: what a live check writes. *)
From Coq Require Import String Ascii Bool Arith Lia List.
From Verif Require BaseProofs.
From Verif Require Import Base Json ReportModel ReportSpec.
Import ListNotations.
Open Scope string_scope.

(* ---------------------------------------------------------------- the loop *)
Fixpoint prep (cur : option json) (xs : list sample) : list sample :=
  match xs with
  | [] => []
  | x :: xs' => snd (attach cur x) :: prep (fst (attach cur x)) xs'
  end.

Lemma prep_length : forall xs cur, length (prep cur xs) = length xs.
Proof. induction xs as [|x xs IH]; intros cur; [reflexivity|]. cbn [prep length]. f_equal. apply IH. Qed.

Lemma seen_attach : forall front cur x, seen_last front cur -> seen_last (front ++ [x]) (fst (attach cur x)).
Proof.
  intros front cur x H. unfold attach.
  assert (K : s_what x <> AResource -> seen_last (front ++ [x]) cur).
  { intros N. destruct cur as [doc|]; cbn [seen_last] in *.
    - destruct H as (a & y & b & -> & Hy & Hd & Hb). exists a, y, (b ++ [x])%list.
      split; [rewrite <- app_assoc; reflexivity|]. split; [exact Hy|]. split; [exact Hd|].
      intros z Hz. apply in_app_iff in Hz. destruct Hz as [Hz|[<- | []]]; [apply Hb, Hz|exact N].
    - intros z Hz. apply in_app_iff in Hz. destruct Hz as [Hz|[<- | []]]; [apply H, Hz|exact N]. }
  destruct (s_what x) eqn:E; cbn [fst]; try (apply K; discriminate).
  exists front, x, []. split; [reflexivity|]. split; [exact E|]. split; [reflexivity|]. intros y [].
Qed.

Lemma prep_spec : forall xs front cur, seen_last front cur ->
  forall before x after, xs = (before ++ x :: after)%list ->
    exists y, nth_error (prep cur xs) (length before) = Some y /\
      match s_what x with
      | ASignal => s_what y = ASignal /\ s_doc y = s_doc x /\ seen_last (front ++ before) (s_resource y)
      | _ => y = x
      end.
Proof.
  induction xs as [|z xs IH]; intros front cur H before x after E; [destruct before; discriminate|].
  destruct before as [|b before].
  - injection E as -> ->. exists (snd (attach cur x)). split; [reflexivity|]. unfold attach.
    destruct (s_what x) eqn:W; cbn [snd]; try reflexivity. rewrite app_nil_r. split; [reflexivity|]. split; [reflexivity|exact H].
  - injection E as -> E. cbn [prep length nth_error].
    destruct (IH (front ++ [b])%list (fst (attach cur b)) (seen_attach _ _ _ H) before x after E) as (y & Hy & G).
    exists y. split; [exact Hy|]. rewrite <- app_assoc in G. exact G.
Qed.

Lemma prep_prepared : forall xs, prepared xs (prep None xs).
Proof.
  intros xs. split; [apply prep_length|]. intros before x after E.
  apply (prep_spec xs [] None (fun y (H : In y []) => match H with end) before x after E).
Qed.

Lemma seen_fun : forall l r r', seen_last l r -> seen_last l r' -> r = r'.
Proof.
  assert (U : forall l d, seen_last l (Some d) -> seen_last l None -> False).
  { intros l d (a & x & b & -> & Hx & _) N. apply (N x); [apply in_app_iff; right; left; reflexivity|exact Hx]. }
  intros l [d|] [d'|] A B; try reflexivity; try (exfalso; solve [eauto]).
  f_equal. destruct A as (a & x & b & E & Hx & Hd & Hb), B as (a' & x' & b' & E' & Hx' & Hd' & Hb').
  subst l. revert a' E'. induction a as [|y a IH]; intros a' E'; destruct a' as [|y' a']; cbn [app] in E'.
  - injection E' as E' _. rewrite <- Hd, <- Hd', E'. reflexivity.
  - injection E' as _ E'. exfalso. apply (Hb x'); [rewrite E'; apply in_app_iff; right; left; reflexivity|exact Hx'].
  - injection E' as _ E'. exfalso. apply (Hb' x); [rewrite <- E'; apply in_app_iff; right; left; reflexivity|exact Hx].
  - injection E' as _ E'. exact (IH a' E').
Qed.

Lemma nth_ext : forall {A} (a b : list A), (forall i, nth_error a i = nth_error b i) -> a = b.
Proof.
  intros A. induction a as [|x a IH]; intros [|y b] H; [reflexivity|discriminate (H 0)|discriminate (H 0)|].
  f_equal; [specialize (H 0); cbn in H; congruence|]. apply IH. intros i. exact (H (S i)).
Qed.

Lemma prepared_fun : forall xs ys zs, prepared xs ys -> prepared xs zs -> ys = zs.
Proof.
  intros xs ys zs [Ly Hy] [Lz Hz]. apply nth_ext. intros i.
  destruct (Nat.lt_ge_cases i (length xs)) as [L|L].
  - destruct (nth_error xs i) as [x|] eqn:Ex; [|apply nth_error_None in Ex; lia].
    destruct (nth_error_split _ _ Ex) as (before & after & E & <-).
    destruct (Hy before x after E) as (y & Ey & Gy), (Hz before x after E) as (z & Ez & Gz). rewrite Ey, Ez. f_equal.
    destruct (s_what x); try congruence.
    destruct y as [wy dy ry], z as [wz dz rz]. cbn [s_what s_doc s_resource] in *.
    destruct Gy as (-> & -> & Sy), Gz as (-> & -> & Sz). f_equal. exact (seen_fun _ _ _ Sy Sz).
  - assert (A : nth_error ys i = None) by (apply nth_error_None; lia).
    assert (B : nth_error zs i = None) by (apply nth_error_None; lia). congruence.
Qed.

Section Loop.
  Context {St : Type} (K : checks St) (P : printers) (c : config).

  Lemma loop_report : forall o d xs l ys st,
    report_mode c o d = true -> checked K (l_state l) (prep (l_current l) xs) ys st ->
    exists cur, over_samples K P c o d l xs = (mk_loop st cur (l_kept l ++ ys)%list (l_seen l), true).
  Proof.
    intros o d xs. induction xs as [|x xs IH]; intros l ys st R H; cbn [over_samples prep] in *.
    - inversion H; subst. exists (l_current l). rewrite app_nil_r. destruct l; reflexivity.
    - inversion H as [|? ? y st1 ? ys' ? C H']; subst.
      destruct (attach (l_current l) x) as [cur x1]. cbn [fst snd] in *. rewrite C, R.
      destruct (IH (mk_loop st1 cur (l_kept l ++ [y])%list (l_seen l)) ys' st R H') as (cur' & E).
      exists cur'. rewrite E. cbn [l_kept l_seen]. rewrite <- app_assoc. reflexivity.
  Qed.

  Lemma loop_stream : forall o d xs l ys st,
    report_mode c o d = false -> checked K (l_state l) (prep (l_current l) xs) ys st ->
    forall s, generate_all P o d (l_seen l) (map (doc_sample K) ys) = Some s ->
    exists cur, over_samples K P c o d l xs = (mk_loop st cur (l_kept l) s, true).
  Proof.
    intros o d xs. induction xs as [|x xs IH]; intros l ys st R H s G; cbn [over_samples prep] in *.
    - inversion H; subst. injection G as <-. exists (l_current l). destruct l; reflexivity.
    - inversion H as [|? ? y st1 ? ys' ? C H']; subst.
      destruct (attach (l_current l) x) as [cur x1]. cbn [fst snd] in *. rewrite C, R.
      cbn [map generate_all] in G. destruct (generate P o d (l_seen l) (doc_sample K y)) as [s1|]; [|discriminate].
      exact (IH (mk_loop st1 cur (l_kept l) s1) ys' st R H' s G).
  Qed.

  (* whatever the mode, the loop ends only after all the checks *)
  Lemma loop_checked : forall o d xs l l',
    over_samples K P c o d l xs = (l', true) ->
    exists ys, checked K (l_state l) (prep (l_current l) xs) ys (l_state l').
  Proof.
    intros o d xs. induction xs as [|x xs IH]; intros l l' H; cbn [over_samples prep] in *.
    - injection H as <-. exists []. constructor.
    - destruct (attach (l_current l) x) as [cur x1]. cbn [fst snd].
      destruct (check K (l_state l) x1) as [[y st1]|] eqn:C; [|discriminate].
      assert (G : forall l1, l_state l1 = st1 -> l_current l1 = cur -> over_samples K P c o d l1 xs = (l', true) ->
                 exists ys, checked K (l_state l) (x1 :: prep cur xs) ys (l_state l')).
      { intros l1 E1 E2 H1. destruct (IH l1 l' H1) as (ys & Hy). rewrite E1, E2 in Hy. exists (y :: ys). econstructor; eassumption. }
      destruct (report_mode c o d); [eapply G; [| |exact H]; reflexivity|].
      destruct (generate P o d (l_seen l) (doc_sample K y)); [eapply G; [| |exact H]; reflexivity|discriminate].
  Qed.
End Loop.

Lemma lines_snoc : forall ts t, (lines ts ++ t ++ nl)%string = lines (ts ++ [t]).
Proof.
  induction ts as [|u ts IH]; intros t; [reflexivity|]. cbn [lines app].
  rewrite <- IH, BaseProofs.str_app_assoc. cbn [String.append]. reflexivity.
Qed.

Lemma lines_app : forall a b, lines (a ++ b) = (lines a ++ lines b)%string.
Proof.
  induction a as [|u a IH]; intros b; [reflexivity|]. cbn [lines app].
  rewrite IH, BaseProofs.str_app_assoc. reflexivity.
Qed.

Lemma print_print : forall s a b, print (print s a) b = print s (a ++ b).
Proof. intros s a b. unfold print. cbn. rewrite BaseProofs.str_app_assoc. reflexivity. Qed.

Lemma print_nothing : forall s, print s "" = s.
Proof. intros [p f op a]. unfold print. cbn. rewrite BaseProofs.str_app_nil_r. reflexivity. Qed.

Definition to_stdout (d : dest) : Prop := match d with Dir _ => False | _ => True end.

Lemma all_printed : forall P o d, to_stdout d -> forall data ts s, Forall2 (text_of P o) data ts ->
  generate_all P o d s data = Some (print s (lines ts)).
Proof.
  intros P o d Hd data. induction data as [|x data IH]; intros ts s H; inversion H as [|? t ? ts' Ht H']; subst.
  - cbn. rewrite print_nothing. reflexivity.
  - cbn [generate_all lines].
    assert (E : generate P o d s x = Some (print s (t ++ nl))).
    { destruct o as [f|n|]; cbn [text_of] in Ht; [| |destruct Ht]; unfold generate.
      - subst t. destruct d; [reflexivity|destruct Hd|reflexivity|reflexivity].
      - rewrite Ht. destruct d; [reflexivity|destruct Hd|reflexivity|reflexivity]. }
    rewrite E, (IH ts' _ H'), print_print, BaseProofs.str_app_assoc. reflexivity.
Qed.

Lemma all_in_file_open : forall P path data s old,
  opened s = true -> file s = Some old ->
  generate_all P (Builtin Jsonl) (Dir path) s data = Some (to_file s (old ++ lines (map (ser P Jsonl) data))).
Proof.
  intros P path data. induction data as [|x data IH]; intros s old Ho Hf; cbn [generate_all map lines].
  - f_equal. unfold to_file. destruct s as [p f op a]. cbn in *. subst. rewrite BaseProofs.str_app_nil_r. reflexivity.
  - cbn [generate line_oriented]. rewrite Ho, Hf.
    rewrite (IH (to_file s (old ++ ser P Jsonl x ++ nl)) (old ++ ser P Jsonl x ++ nl)%string eq_refl eq_refl).
    unfold to_file. cbn [printed answer]. do 3 f_equal. rewrite !BaseProofs.str_app_assoc. reflexivity.
Qed.

Lemma all_in_file : forall P path x data s, opened s = false ->
  generate_all P (Builtin Jsonl) (Dir path) s (x :: data) = Some (to_file s (lines (map (ser P Jsonl) (x :: data)))).
Proof.
  intros P path x data s Ho. cbn [generate_all generate line_oriented map lines]. rewrite Ho.
  rewrite (all_in_file_open P path data (to_file s ("" ++ ser P Jsonl x ++ nl)) ("" ++ ser P Jsonl x ++ nl)%string eq_refl eq_refl).
  unfold to_file. cbn [printed answer String.append]. rewrite BaseProofs.str_app_assoc. reflexivity.
Qed.

Lemma strings_all : forall P f data, strings_of P (Builtin f) data = Some (map (ser P f) data).
Proof. intros P f data. induction data as [|x data IH]; [reflexivity|]. cbn [strings_of generate_to_string map]. rewrite IH. reflexivity. Qed.

Lemma join_lines : forall ts, ts <> [] -> (join nl ts ++ nl)%string = lines ts.
Proof.
  induction ts as [|t ts IH]; intros H; [congruence|]. destruct ts as [|u ts]; [reflexivity|].
  change (join nl (t :: u :: ts)) with (t ++ nl ++ join nl (u :: ts))%string.
  cbn [lines]. rewrite !BaseProofs.str_app_assoc, IH by discriminate. reflexivity.
Qed.

Lemma exit_code_of : forall St (K : checks St) c st, no_stats c = false ->
  code_of K c st (exit_code K c (finalize K st)).
Proof.
  intros St K c st N. unfold exit_code, code_of. rewrite N. destruct (fail_on c) as [t|].
  - destruct (fails K (finalize K st) t) eqn:E; [left|right].
    + split; [reflexivity|]. exists t. auto.
    + split; [reflexivity|]. intros t' E'. congruence.
  - right. split; [reflexivity|]. intros t E. discriminate.
Qed.

Lemma code_fun : forall St (K : checks St) c st n m, code_of K c st n -> code_of K c st m -> n = m.
Proof.
  intros St K c st n m [(-> & t & E & F)|(-> & F)] [(-> & t' & E' & F')|(-> & F')]; try reflexivity; exfalso.
  - rewrite (F' t E) in F. discriminate.
  - rewrite (F t' E') in F'. discriminate.
Qed.

(* JSON lines: one line for each sample and one for the statistics, whether they are streamed, reported at the end,
   written to a file or given to a client (there without the last line break), and the same exit code. *)
Theorem C114_lines_partial :
  forall St (K : checks St) P c waiting errs st0 s0 xs ps ys st code,
    no_stats c = false -> opened s0 = false ->
    prepared xs ps -> checked K st0 ps ys st -> code_of K c st code ->
    let text := lines (map (ser P Jsonl) (map (doc_sample K) ys ++ [doc_stats K (finalize K st)])) in
    ends_with_code errs code (print s0 text) (live_check K P c (Builtin Jsonl) Stdout waiting errs st0 s0 xs) /\
    (forall path, ends_with_code errs code (to_file s0 text) (live_check K P c (Builtin Jsonl) (Dir path) waiting errs st0 s0 xs)) /\
    ends_with_code errs code (print s0 text) (live_check K P c (Builtin Jsonl) Http false errs st0 s0 xs) /\
    exists body, (body ++ String "010"%char "")%string = text /\
      ends_with_code errs code (mk_seen (printed s0) (file s0) (opened s0) (Some ("application/jsonl", body)))
        (live_check K P c (Builtin Jsonl) Http true errs st0 s0 xs).
Proof.
  intros St K P c waiting errs st0 s0 xs ps ys st code N Ho Hp Hc Hx text.
  assert (Eps : ps = prep None xs) by (apply (prepared_fun xs); [exact Hp|apply prep_prepared]). subst ps.
  assert (Ecode : code = exit_code K c (finalize K st)) by (eapply code_fun; [exact Hx|apply exit_code_of, N]).
  assert (T : forall data, Forall2 (text_of P (Builtin Jsonl)) data (map (ser P Jsonl) data)).
  { induction data as [|x data IH]; cbn [map]; constructor; [reflexivity|exact IH]. }
  assert (R : forall d, report_mode c (Builtin Jsonl) d = true ->
     exists cur, over_samples K P c (Builtin Jsonl) d (mk_loop st0 None [] s0) xs = (mk_loop st cur ys s0, true)).
  { intros d Hd. exact (loop_report K P c (Builtin Jsonl) d xs (mk_loop st0 None [] s0) ys st Hd Hc). }
  assert (Rep : forall d, to_stdout d ->
     generate_report K P c (Builtin Jsonl) d s0 ys (finalize K st) = Some (print s0 text)).
  { intros d Hd. unfold generate_report. cbn [line_oriented]. rewrite N. apply all_printed; [exact Hd|apply T]. }
  unfold ends_with_code. rewrite Ecode. split; [|split; [|split]].
  - unfold live_check. destruct (report_mode c (Builtin Jsonl) Stdout) eqn:M.
    + destruct (R Stdout M) as (cur & ->). cbn [l_state l_kept l_seen].
      rewrite (Rep Stdout Logic.I). reflexivity.
    + destruct (loop_stream K P c (Builtin Jsonl) Stdout xs (mk_loop st0 None [] s0) ys st M Hc
                 (print s0 (lines (map (ser P Jsonl) (map (doc_sample K) ys))))) as (cur & ->).
      { apply all_printed; [exact Logic.I|apply T]. }
      cbn [l_state l_kept l_seen]. rewrite N. cbn [generate]. rewrite print_print, lines_snoc.
      unfold text. rewrite map_app. reflexivity.
  - intros path. unfold live_check. destruct (R (Dir path) eq_refl) as (cur & ->). cbn [l_state l_kept l_seen].
    cbn [report_mode file_output]. unfold generate_report. cbn [line_oriented]. rewrite N.
    unfold text. destruct (map (doc_sample K) ys ++ [doc_stats K (finalize K st)])%list as [|x data] eqn:E.
    { destruct (map (doc_sample K) ys); discriminate. }
    rewrite all_in_file by exact Ho. reflexivity.
  - unfold live_check. destruct (R Http eq_refl) as (cur & ->). cbn [l_state l_kept l_seen].
    rewrite (Rep Http Logic.I). reflexivity.
  - exists (join nl (map (ser P Jsonl) (map (doc_sample K) ys ++ [doc_stats K (finalize K st)]))). split.
    + apply join_lines. rewrite map_app. destruct (map (ser P Jsonl) (map (doc_sample K) ys)); discriminate.
    + unfold live_check. destruct (R Http eq_refl) as (cur & ->). cbn [l_state l_kept l_seen].
      unfold body_of. cbn [line_oriented]. rewrite N, strings_all. reflexivity.
Qed.

(* In the other formats a report is one document with the samples in their order and the statistics: on the
   standard output with --no-stream, in the file, in the answer to the client. *)
Theorem C114_report_partial :
  forall St (K : checks St) P c o waiting errs st0 s0 xs ps ys st text,
    o <> Builtin Jsonl -> opened s0 = false ->
    prepared xs ps -> checked K st0 ps ys st ->
    text_of P o (doc_report K (if no_stats c then None else Some (finalize K st)) ys) text ->
    exists code, (no_stats c = false -> code_of K c st code) /\ (no_stats c = true -> code = 0) /\
    (no_stream c = true ->
       ends_with_code errs code (print s0 (text ++ String "010"%char "")) (live_check K P c o Stdout waiting errs st0 s0 xs)) /\
    (forall path, ends_with_code errs code (to_file s0 text) (live_check K P c o (Dir path) waiting errs st0 s0 xs)) /\
    ends_with_code errs code (print s0 (text ++ String "010"%char "")) (live_check K P c o Http false errs st0 s0 xs) /\
    exists kind, ends_with_code errs code (mk_seen (printed s0) (file s0) (opened s0) (Some (kind, text)))
      (live_check K P c o Http true errs st0 s0 xs).
Proof.
  intros St K P c o waiting errs st0 s0 xs ps ys st text Ho Hop Hp Hc Ht.
  assert (Eps : ps = prep None xs) by (apply (prepared_fun xs); [exact Hp|apply prep_prepared]). subst ps.
  exists (exit_code K c (finalize K st)). split; [apply exit_code_of|]. split.
  { intros N. unfold exit_code. rewrite N. destruct (fail_on c); reflexivity. }
  assert (L : line_oriented o = false) by (destruct o as [[]|n|]; cbn; congruence).
  assert (R : forall d, report_mode c o d = true ->
     exists cur, over_samples K P c o d (mk_loop st0 None [] s0) xs = (mk_loop st cur ys s0, true)).
  { intros d Hd. exact (loop_report K P c o d xs (mk_loop st0 None [] s0) ys st Hd Hc). }
  assert (Rep : forall d, to_stdout d ->
     generate_report K P c o d s0 ys (finalize K st) = Some (print s0 (text ++ String "010"%char ""))).
  { intros d Hd. unfold generate_report. rewrite L.
    set (data := doc_report K (if no_stats c then None else Some (finalize K st)) ys) in *.
    pose proof (all_printed P o d Hd [data] [text] s0 (Forall2_cons _ _ Ht (Forall2_nil _))) as G.
    cbn [generate_all lines] in G. destruct (generate P o d s0 data); congruence. }
  unfold ends_with_code. split; [|split; [|split]].
  - intros Ns. assert (M : report_mode c o Stdout = true) by (unfold report_mode, file_output; destruct o; exact Ns).
    unfold live_check. destruct (R Stdout M) as (cur & ->). cbn [l_state l_kept l_seen]. rewrite M.
    rewrite (Rep Stdout Logic.I). reflexivity.
  - intros path. assert (M : report_mode c o (Dir path) = true) by (destruct o; [reflexivity|reflexivity|destruct Ht]).
    unfold live_check. destruct (R (Dir path) M) as (cur & ->). cbn [l_state l_kept l_seen]. rewrite M.
    unfold generate_report. rewrite L. unfold generate. destruct o as [f|n|]; cbn [text_of] in Ht; [| |destruct Ht].
    + rewrite Hop, L, <- Ht. cbn [String.append]. rewrite BaseProofs.str_app_nil_r. reflexivity.
    + rewrite Ht. reflexivity.
  - unfold live_check. destruct (R Http eq_refl) as (cur & ->). cbn [l_state l_kept l_seen].
    rewrite (Rep Http Logic.I). reflexivity.
  - exists (content_type o). unfold live_check. destruct (R Http eq_refl) as (cur & ->). cbn [l_state l_kept l_seen].
    unfold body_of. rewrite L.
    assert (E : generate_to_string P o (doc_report K (if no_stats c then None else Some (finalize K st)) ys) = Some text).
    { destruct o as [f|n|]; cbn [text_of generate_to_string] in *; [congruence|exact Ht|destruct Ht]. }
    rewrite E. reflexivity.
Qed.

(* Streamed, in any format, each sample is a document of its own and so are the statistics. *)
Theorem C114_stream :
  forall St (K : checks St) P c o waiting errs st0 s0 xs ps ys st ts,
    no_stream c = false -> no_stats c = false ->
    prepared xs ps -> checked K st0 ps ys st ->
    Forall2 (text_of P o) (map (doc_sample K) ys ++ [doc_stats K (finalize K st)]) ts ->
    exists code, code_of K c st code /\
      ends_with_code errs code (print s0 (lines ts)) (live_check K P c o Stdout waiting errs st0 s0 xs).
Proof.
  intros St K P c o waiting errs st0 s0 xs ps ys st ts Ns N Hp Hc Ht.
  assert (Eps : ps = prep None xs) by (apply (prepared_fun xs); [exact Hp|apply prep_prepared]). subst ps.
  exists (exit_code K c (finalize K st)). split; [apply exit_code_of, N|].
  apply Forall2_app_inv_l in Ht. destruct Ht as (t1 & t2 & H1 & H2 & ->).
  inversion H2 as [|? t ? ? Hs Hn]; subst. inversion Hn; subst.
  assert (M : report_mode c o Stdout = false) by (unfold report_mode, file_output; destruct o; exact Ns).
  unfold ends_with_code, live_check.
  destruct (loop_stream K P c o Stdout xs (mk_loop st0 None [] s0) ys st M Hc (print s0 (lines t1))) as (cur & ->).
  { apply all_printed; [exact Logic.I|exact H1]. }
  cbn [l_state l_kept l_seen]. rewrite M, N.
  pose proof (all_printed P o Stdout Logic.I [doc_stats K (finalize K st)] [t] (print s0 (lines t1)) (Forall2_cons _ _ Hs (Forall2_nil _))) as G.
  cbn [generate_all] in G. destruct (generate P o Stdout (print s0 (lines t1)) (doc_stats K (finalize K st))) as [s|]; [|discriminate].
  injection G as ->. rewrite print_print, lines_app. reflexivity.
Qed.

(* The exit code does not depend on how the result is written. *)
Theorem C114_exit_partial :
  forall St (K : checks St) P c o d waiting errs st0 s0 xs code s,
    live_check K P c o d waiting errs st0 s0 xs = Exit code s ->
    errs = false /\
    exists ps ys st, prepared xs ps /\ checked K st0 ps ys st /\
      (no_stats c = false -> code_of K c st code) /\ (no_stats c = true -> code = 0).
Proof.
  intros St K P c o d waiting errs st0 s0 xs code s H. unfold live_check in H.
  destruct (over_samples K P c o d (mk_loop st0 None [] s0) xs) as [l ok] eqn:E. destruct ok; [|discriminate].
  destruct (loop_checked K P c o d xs _ _ E) as (ys & Hc). cbn [l_state l_current] in Hc.
  match type of H with match ?x with _ => _ end = _ => destruct x as [s1|]; [|discriminate] end.
  destruct errs; [discriminate|]. injection H as <- _. split; [reflexivity|].
  exists (prep None xs), ys, (l_state l). split; [apply prep_prepared|]. split; [exact Hc|]. split; [apply exit_code_of|].
  intros N. unfold exit_code. rewrite N. destruct (fail_on c); reflexivity.
Qed.

(* With --format mute, or --output none, nothing is written, and the exit code is the one asked for. *)
Theorem C114_mute :
  forall St (K : checks St) P c d waiting st0 s0 xs ps ys st,
    d <> Http -> no_stats c = false -> prepared xs ps -> checked K st0 ps ys st ->
    exists code, code_of K c st code /\ live_check K P c Mute d waiting false st0 s0 xs = Exit code s0.
Proof.
  intros St K P c d waiting st0 s0 xs ps ys st Hd N Hp Hc.
  assert (Eps : ps = prep None xs) by (apply (prepared_fun xs); [exact Hp|apply prep_prepared]). subst ps.
  exists (exit_code K c (finalize K st)). split; [apply exit_code_of, N|]. unfold live_check.
  assert (G : forall data s, generate_all P Mute d s data = Some s) by (induction data as [|x data IH]; intros s; [reflexivity|apply IH]).
  destruct (report_mode c Mute d) eqn:M.
  - destruct (loop_report K P c Mute d xs (mk_loop st0 None [] s0) ys st M Hc) as (cur & ->). cbn [l_state l_kept l_seen].
    destruct d; try congruence; reflexivity.
  - destruct (loop_stream K P c Mute d xs (mk_loop st0 None [] s0) ys st M Hc s0 (G _ _)) as (cur & ->).
    cbn [l_state l_kept l_seen]. destruct d; try congruence; reflexivity.
Qed.

(* A sample that cannot be checked ends the command: streamed, the samples before it have been written; in a report
   nothing of them is. *)
Theorem C114_lost_refuted :
  let xs := [one "a"; one "bad"] in
  live_check sample_checks sample_printers (mk_config false false None) (Builtin Jsonl) Stdout false false 0 nothing xs
    = Error (print nothing (lines ["a"])) /\
  live_check sample_checks sample_printers (mk_config false true None) (Builtin Jsonl) Stdout false false 0 nothing xs
    = Error nothing.
Proof. split; reflexivity. Qed.

(* In a report nothing is ever written before all the samples are checked. *)
Theorem C114_report_all_or_nothing :
  forall St (K : checks St) P c o d waiting errs st0 s0 xs ps,
    (exists path, d = Dir path) \/ d = Http \/ no_stream c = true -> o <> Mute ->
    prepared xs ps -> (forall ys st, ~ checked K st0 ps ys st) ->
    live_check K P c o d waiting errs st0 s0 xs = Error s0.
Proof.
  intros St K P c o d waiting errs st0 s0 xs ps Hd Ho Hp Hc.
  assert (Eps : ps = prep None xs) by (apply (prepared_fun xs); [exact Hp|apply prep_prepared]). subst ps.
  assert (M : report_mode c o d = true).
  { unfold report_mode, file_output. destruct Hd as [(path & ->)|[-> | H]]; [destruct o; congruence|reflexivity|].
    destruct d, o; congruence. }
  assert (S : forall xs l, l_seen (fst (over_samples K P c o d l xs)) = l_seen l).
  { induction xs0 as [|x xs0 IH]; intros l; [reflexivity|]. cbn [over_samples].
    destruct (attach (l_current l) x) as [cur x1]. destruct (check K (l_state l) x1) as [[y st1]|]; [|reflexivity].
    rewrite M. rewrite IH. reflexivity. }
  unfold live_check. specialize (S xs (mk_loop st0 None [] s0)).
  destruct (over_samples K P c o d (mk_loop st0 None [] s0) xs) as [l ok] eqn:E. destruct ok.
  - destruct (loop_checked K P c o d xs _ _ E) as (ys & H). destruct (Hc ys _ H).
  - cbn [fst l_seen] in S. rewrite S. reflexivity.
Qed.

(* Without statistics a streamed check ends with a line for the disabled statistics, a report does not. *)
Theorem C114_disabled_refuted :
  let xs := [one "a"] in
  live_check sample_checks sample_printers (mk_config true false None) (Builtin Jsonl) Stdout false false 0 nothing xs
    = Exit 0 (print nothing (lines ["a"; "disabled"])) /\
  live_check sample_checks sample_printers (mk_config true true None) (Builtin Jsonl) Stdout false false 0 nothing xs
    = Exit 0 (print nothing (lines ["a"])).
Proof. split; reflexivity. Qed.

(* Without statistics and without samples the report of an earlier run stays in the directory. *)
Theorem C114_stale_refuted :
  forall St (K : checks St) P path st0 old,
    live_check K P (mk_config true false None) (Builtin Jsonl) (Dir path) false false st0 (mk_seen "" (Some old) false None) []
      = Exit 0 (mk_seen "" (Some old) false None).
Proof. reflexivity. Qed.

(* Without statistics the check never fails. *)
Theorem C114_gate_refuted :
  let xs := [one "a"; one "b"] in
  live_check sample_checks sample_printers (mk_config true false (Some "violation")) (Builtin Jsonl) Stdout false false 0 nothing xs
    = Exit 0 (print nothing (lines ["a"; "b"; "disabled"])) /\
  live_check sample_checks sample_printers (mk_config false false (Some "violation")) (Builtin Jsonl) Stdout false false 0 nothing xs
    = Exit 1 (print nothing (lines ["a"; "b"; "stats"])).
Proof. split; reflexivity. Qed.

(* A signal that comes with its own resource is checked without it. *)
Theorem C114_own_resource_refuted :
  forall doc own, prepared [mk_sample ASignal doc (Some own)] [mk_sample ASignal doc None].
Proof.
  intros doc own. pose proof (prep_prepared [mk_sample ASignal doc (Some own)]) as H. exact H.
Qed.

(* The name of a format is compared without regard to case only with the built-in ones: a user's own template of
   that name is used for `json` and not for `JSON`. *)
Theorem C114_format_refuted :
  exists dirs, choose_output "json" dirs Stdout = Some (Template "json") /\
    choose_output "JSON" dirs Stdout = Some (Builtin Json) /\
    choose_output "ansi" (fun n => String.eqb n "ansi") Stdout = Some (Template "ansi") /\
    choose_output "ANSI" (fun n => String.eqb n "ansi") Stdout = None.
Proof. exists (fun n => String.eqb n "json"). repeat split. Qed.

(* What is written in an existing format: a template of that very name first, then the built-in formats in any
   case; `mute` in any case and --output none write nothing. *)
Theorem C114_format :
  forall format dirs option_output,
    (option_output = Some "none" \/ lower format = "mute" ->
       choose_output format dirs (dest_of option_output) = Some Mute) /\
    (option_output <> Some "none" -> lower format <> "mute" -> dirs format = true ->
       choose_output format dirs (dest_of option_output) = Some (Template format)) /\
    (option_output <> Some "none" -> dirs format = false -> forall f,
       choose_output format dirs (dest_of option_output) = Some (Builtin f) <->
       lower format = match f with Json => "json" | Yaml => "yaml" | Jsonl => "jsonl" end).
Proof.
  intros format dirs oo.
  assert (D : dest_of oo = Nowhere <-> oo = Some "none").
  { unfold dest_of. destruct oo as [p|]; [|split; discriminate].
    destruct (String.eqb_spec p "http") as [->|N1]; [split; discriminate|].
    destruct (String.eqb_spec p "none") as [->|N2]; [tauto|]. split; [discriminate|congruence]. }
  unfold choose_output. split; [|split].
  - intros [->|H]; [reflexivity|]. rewrite H. destruct (dest_of oo); reflexivity.
  - intros No Nm Hd. rewrite Hd. destruct (String.eqb_spec (lower format) "mute"); [congruence|].
    destruct (dest_of oo) eqn:E; try reflexivity. destruct (No (proj1 D eq_refl)).
  - intros No Hd f. rewrite Hd.
    assert (G : (if String.eqb (lower format) "mute" then Some Mute
                 else match builtin_of (lower format) with Some f0 => Some (Builtin f0) | None => None end) = Some (Builtin f) <->
                lower format = match f with Json => "json" | Yaml => "yaml" | Jsonl => "jsonl" end).
    { unfold builtin_of. destruct (String.eqb_spec (lower format) "mute") as [->|N]; [split; [discriminate|destruct f; discriminate]|].
      destruct (String.eqb_spec (lower format) "json") as [->|N1]; [split; [intros H; injection H as <-; reflexivity|destruct f; congruence]|].
      destruct (String.eqb_spec (lower format) "yaml") as [->|N2]; [split; [intros H; injection H as <-; reflexivity|destruct f; congruence]|].
      destruct (String.eqb_spec (lower format) "jsonl") as [->|N3]; [split; [intros H; injection H as <-; reflexivity|destruct f; congruence]|].
      split; [discriminate|]. destruct f; congruence. }
    destruct (dest_of oo) eqn:E; try exact G. destruct (No (proj1 D eq_refl)).
Qed.

Example C114_case :
  let xs := [mk_sample AResource (JStr "r") None; mk_sample ASignal (JStr "m") None; one "a"] in
  let ps := [mk_sample AResource (JStr "r") None; mk_sample ASignal (JStr "m") (Some (JStr "r")); one "a"] in
  prepared xs ps /\ checked sample_checks 0 ps ps 3 /\
  code_of sample_checks (mk_config false true (Some "violation")) 3 1 /\
  live_check sample_checks sample_printers (mk_config false true (Some "violation")) (Builtin Jsonl) Http true false 0 nothing xs
    = Exit 1 (mk_seen "" None false (Some ("application/jsonl", "r" ++ nl ++ "m" ++ nl ++ "a" ++ nl ++ "stats"))).
Proof.
  split; [exact (prep_prepared [mk_sample AResource (JStr "r") None; mk_sample ASignal (JStr "m") None; one "a"])|].
  split; [repeat econstructor|]. split; [left; split; [reflexivity|]; exists "violation"; split; reflexivity|]. reflexivity.
Qed.

Print Assumptions C114_lines_partial.
Print Assumptions C114_report_partial.
Print Assumptions C114_stream.
Print Assumptions C114_exit_partial.
Print Assumptions C114_mute.
Print Assumptions C114_lost_refuted.
Print Assumptions C114_report_all_or_nothing.
Print Assumptions C114_disabled_refuted.
Print Assumptions C114_stale_refuted.
Print Assumptions C114_gate_refuted.
Print Assumptions C114_own_resource_refuted.
Print Assumptions C114_format_refuted.
Print Assumptions C114_format.
