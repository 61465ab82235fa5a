(* C42, C43, C44, C73: searching, ranking, browsing and looking up. *)
From Coq Require Import String Ascii Bool Arith Lia Permutation Sorted List.
Import ListNotations.
From Verif Require Import Base BaseProofs BaseProofs2 Json SemTypes SearchModel SearchSpec SearchProofs.
Local Open Scope string_scope.

(* ================= C42: pages ================= *)
Lemma items_objects r sep : cx_items (from_registry r sep) = objects r.
Proof. unfold objects. cbn. rewrite app_nil_r. reflexivity. Qed.
Lemma search_filtered lower cx query kind stab hide limit offset :
  search lower cx query kind stab hide limit offset =
  match query with
  | Some q => if String.eqb q "" then (browse_mode (filtered kind stab hide (cx_items cx)) (Nat.min limit 1000) offset, length (filtered kind stab hide (cx_items cx)))
              else search_mode lower (filtered kind stab hide (cx_items cx)) q (Nat.min limit 1000) offset (cx_separator cx)
  | None => (browse_mode (filtered kind stab hide (cx_items cx)) (Nat.min limit 1000) offset, length (filtered kind stab hide (cx_items cx)))
  end.
Proof. reflexivity. Qed.
Lemma browse_picked (W : item -> Prop) (w : item -> bool) : (forall i, w i = true <-> W i) -> forall l,
  picked (fun i n => W i /\ n = 0) l (map (pair 0) (filter w l)).
Proof.
  intros H l. induction l as [|i l IH]; cbn [filter map]; [constructor|]. destruct (w i) eqn:E; cbn [map].
  - apply pk_keep; [split; [apply H, E|reflexivity]|exact IH].
  - apply pk_drop; [|exact IH]. intros n [X _]. apply H in X. congruence.
Qed.
Lemma page_map {A B} (f : A -> B) l a b : map f (page a b l) = page a b (map f l).
Proof. unfold page. rewrite skipn_map, firstn_map. reflexivity. Qed.
Lemma browse_ranked (l : list item) : ranked (map (pair 0) l) (map (pair 0) l).
Proof.
  split; [reflexivity|]. split; [|reflexivity]. induction l as [|x l IH]; constructor; [exact IH|]. apply Forall_forall. intros y Hy.
  apply in_map_iff in Hy as (z & <- & _). cbn. lia.
Qed.
Lemma query_picked lower sep q kind stab hide : q <> "" -> forall l,
  picked (fun i n => wanted kind stab hide i /\ scores lower sep (Some q) i n) l
    (flat_map (fun i => let s := score_match lower q i sep in if Nat.ltb 0 s then [(s, i)] else []) (filter (wantedb kind stab hide) l)).
Proof.
  intros N l. induction l as [|i l IH]; cbn [filter]; [constructor|]. destruct (wantedb kind stab hide i) eqn:E; cbn [flat_map].
  - apply wantedb_iff in E. cbv zeta. destruct (Nat.ltb_spec 0 (score_match lower q i sep)) as [L|L]; cbn [app].
    + apply pk_keep; [|exact IH]. split; [exact E|]. apply scores_iff; auto.
    + apply pk_drop; [|exact IH]. intros n [_ X]. apply scores_iff in X; [lia|exact N].
  - apply pk_drop; [|exact IH]. intros n [X _]. apply wantedb_iff in X. congruence.
Qed.

(* what is found, and its order, depend on the query and the filters alone; limit and offset cut a page
   out of it, and the total counts all of it *)
Theorem C42_answer lower r sep query kind stab hide : exists full, answer lower r sep query kind stab hide full /\
  forall limit offset, search lower (from_registry r sep) query kind stab hide limit offset =
                       (firstn (Nat.min limit 1000) (skipn offset full), length full).
Proof.
  set (l := filter (wantedb kind stab hide) (objects r)).
  assert (Br : forall limit offset, (browse_mode l limit offset, length l) = (firstn limit (skipn offset (map (pair 0) l)), length (map (pair 0) l))).
  { intros limit offset. unfold browse_mode. rewrite page_map, map_length. reflexivity. }
  assert (None_case : exists full, answer lower r sep None kind stab hide full /\ forall limit offset, (browse_mode l (Nat.min limit 1000) offset, length l) = (firstn (Nat.min limit 1000) (skipn offset full), length full)).
  { exists (map (pair 0) l). split; [|intros; apply Br]. exists (map (pair 0) l). split; [|apply browse_ranked].
    apply (browse_picked (wanted kind stab hide) (wantedb kind stab hide)). intros i. apply wantedb_iff. }
  destruct query as [q|].
  - destruct (string_dec q "") as [->|Nq].
    + destruct None_case as (full & A & P). exists full. split; [exact A|]. intros limit offset. rewrite search_filtered, filtered_eq, items_objects. cbn [String.eqb]. apply P.
    + set (m := flat_map (fun i => let s := score_match lower q i sep in if Nat.ltb 0 s then [(s, i)] else []) l).
      exists (stable_sort (fun a b => Nat.leb (fst b) (fst a)) m). split.
      * exists m. split; [apply query_picked, Nq|apply sort_ranked].
      * intros limit offset. rewrite search_filtered, filtered_eq, items_objects. destruct (String.eqb_spec q "") as [X|_]; [congruence|]. reflexivity.
  - destruct None_case as (full & A & P). exists full. split; [exact A|]. intros limit offset. rewrite search_filtered, filtered_eq, items_objects. apply P.
Qed.
Lemma scores_fun lower sep query i n m : scores lower sep query i n -> scores lower sep query i m -> n = m.
Proof.
  destruct query as [q|]; [|cbn; congruence]. destruct (string_dec q "") as [->|Nq]; [cbn; congruence|].
  rewrite !scores_iff by exact Nq. intros [_ A] [_ B]. congruence.
Qed.
(* the answer is determined by the description of it *)
Theorem C42_determined lower r sep query kind stab hide full full' :
  answer lower r sep query kind stab hide full -> answer lower r sep query kind stab hide full' -> full = full'.
Proof.
  intros (m & P & R) (m' & P' & R'). assert (E : m = m').
  { eapply picked_fun; [|exact P|exact P']. intros i n k [_ A] [_ B]. eapply scores_fun; eassumption. }
  subst m'. eapply ranked_fun; eassumption.
Qed.
Lemma walk_ext {A} (f g : nat -> list A) : (forall o, f o = g o) -> forall o ps, walk f o ps -> walk g o ps.
Proof.
  intros E o ps H. induction H as [o Z|o ps N _ IH]; rewrite E in *; [apply wk_end, Z|apply wk_more; assumption].
Qed.
Lemma walk_bound {A} (f : nat -> list A) k : (forall o, length (f o) <= k) -> forall o ps, walk f o ps -> forall p, In p ps -> length p <= k.
Proof. intros B o ps H. induction H as [o Z|o ps N _ IH]; intros p I; [destruct I|]. destruct I as [<-|I]; [apply B|apply IH, I]. Qed.
(* walking through the pages shows all of it, once and in order; no page is larger than the limit or 1000 *)
Theorem C42_walk lower r sep query kind stab hide limit full : 0 < limit -> answer lower r sep query kind stab hide full ->
  let get o := fst (search lower (from_registry r sep) query kind stab hide limit o) in
  (exists pages, walk get 0 pages) /\
  forall pages, walk get 0 pages -> concat pages = full /\ forall p, In p pages -> length p <= limit /\ length p <= 1000.
Proof.
  intros L A get. destruct (C42_answer lower r sep query kind stab hide) as (full' & A' & Pg). rewrite (C42_determined _ _ _ _ _ _ _ _ _ A A'). clear full A.
  assert (G : forall o, get o = page (Nat.min limit 1000) o full'). { intros o. unfold get. rewrite Pg. reflexivity. }
  clearbody get. assert (W : forall o ps, walk get o ps <-> walk (fun o => page (Nat.min limit 1000) o full') o ps).
  { intros o ps. split; apply walk_ext; intros o'; [|symmetry]; apply G. }
  split.
  - destruct (walk_exists full' (Nat.min limit 1000) ltac:(lia) (length full') 0 ltac:(lia)) as (ps & H). exists ps. apply W, H.
  - intros ps H. split.
    + apply W in H. apply walk_pages in H; [exact H|lia].
    + intros p I. assert (B : length p <= Nat.min limit 1000); [|lia]. eapply walk_bound; [|exact H|exact I]. intros o. rewrite G. apply firstn_le_length.
Qed.
(* whatever is found passes the filters, is in the registry and is shown with its score; and the other way round *)
Theorem C42_found lower r sep query kind stab hide full n i : answer lower r sep query kind stab hide full ->
  (In (n, i) full <-> In i (objects r) /\ wanted kind stab hide i /\ scores lower sep query i n).
Proof.
  intros (m & P & (Pm & _)). rewrite <- (Permutation_in' eq_refl Pm). clear full Pm. induction P as [|j k l m H _ IH|j l m H _ IH]; cbn [In].
  - tauto.
  - rewrite IH. split.
    + intros [E|(I & W)]; [injection E as -> ->; tauto|tauto].
    + intros ([->|I] & W & S0); [left; f_equal; eapply scores_fun; [apply H|exact S0]|tauto].
  - rewrite IH. split; [tauto|]. intros ([->|I] & X); [destruct (H n X)|tauto].
Qed.
(* the two servers show the same answer: the total counts all of it, the count what is shown *)
Theorem C42_served lower r sep query kind stab hide full : answer lower r sep query kind stab hide full -> forall limit offset,
  search_registry lower (from_registry r sep) query kind stab hide limit offset =
    (length full, length (firstn (Nat.min limit 1000) (skipn offset full)), firstn (Nat.min limit 1000) (skipn offset full)) /\
  (hide = false -> mcp_search lower (from_registry r sep) query kind stab limit = (firstn (Nat.min limit 100) full, Nat.min (Nat.min limit 100) (length full), length full)).
Proof.
  intros A limit offset. destruct (C42_answer lower r sep query kind stab hide) as (full' & A' & Pg). rewrite <- (C42_determined _ _ _ _ _ _ _ _ _ A A') in Pg. clear full' A'.
  split.
  - unfold search_registry. rewrite Pg. reflexivity.
  - intros ->. unfold mcp_search. rewrite Pg. cbn [skipn]. rewrite firstn_length. replace (Nat.min (Nat.min limit 100) 1000) with (Nat.min limit 100) by lia. reflexivity.
Qed.
Print Assumptions C42_answer.
Print Assumptions C42_determined.
Print Assumptions C42_walk.
Print Assumptions C42_found.
Print Assumptions C42_served.
Definition sample_search : sregistry :=
  sample_attributes [sample_entry "net.peer" "The http peer." false; sample_entry "http.method" "A method." true; sample_entry "http" "All of it." false; sample_entry "db" "A database." false].
Example C42_case : answer (fun s => s) sample_search "." (Some "http") None None false
  [(100, (KAttribute, sample_entry "http" "All of it." false)); (40, (KAttribute, sample_entry "net.peer" "The http peer." false));
   (8, (KAttribute, sample_entry "http.method" "A method." true))].
Proof.
  destruct (C42_answer (fun s => s) sample_search "." (Some "http") None None false) as (full & A & P). specialize (P 3 0).
  match type of P with ?x = _ => let y := eval vm_compute in x in change (y = (firstn 3 full, length full)) in P end.
  destruct full as [|a [|b [|c [|d full]]]]; try discriminate. cbn [firstn] in P. injection P as <- <- <-. exact A.
Qed.

(* ================= C43: ranking ================= *)
(* results come by non-increasing score *)
Theorem C43_order lower r sep query kind stab hide limit offset :
  StronglySorted (fun x y => fst y <= fst x) (fst (search lower (from_registry r sep) query kind stab hide limit offset)).
Proof.
  destruct (C42_answer lower r sep query kind stab hide) as (full & (m & _ & (_ & St & _)) & Pg). rewrite Pg. cbn [fst]. clear Pg m.
  assert (Sk : forall n (l : list (nat * item)), StronglySorted (fun x y => fst y <= fst x) l -> StronglySorted (fun x y => fst y <= fst x) (skipn n l)).
  { induction n as [|n IH]; intros l H; [exact H|]. destruct l as [|x l]; [exact H|]. inversion H; subst. apply IH. assumption. }
  assert (Fi : forall n (l : list (nat * item)), StronglySorted (fun x y => fst y <= fst x) l -> StronglySorted (fun x y => fst y <= fst x) (firstn n l)).
  { induction n as [|n IH]; intros l H; [constructor|]. destruct l as [|x l]; [constructor|]. inversion H as [|? ? H1 H2]; subst. cbn. constructor; [apply IH, H1|].
    rewrite Forall_forall in H2 |- *. intros y Hy. apply H2. rewrite <- (firstn_skipn n l). apply in_app_iff. left. exact Hy. }
  apply Fi, Sk, St.
Qed.
(* the score is the rating of the match, a tenth of it for deprecated objects *)
Theorem C43_score lower r sep q kind stab hide limit offset n i : q <> "" ->
  In (n, i) (fst (search lower (from_registry r sep) (Some q) kind stab hide limit offset)) ->
  exists rate, rating sep (lower q) (lower (en_key (snd i))) (lower (en_brief (snd i))) (lower (en_note (snd i))) rate /\
    (en_deprecated (snd i) = false -> n = rate) /\ (en_deprecated (snd i) = true -> n = rate / 10).
Proof.
  intros Nq I. destruct (C42_answer lower r sep (Some q) kind stab hide) as (full & A & Pg). rewrite Pg in I. cbn [fst] in I.
  assert (I' : In (n, i) full). { rewrite <- (firstn_skipn offset full). apply in_app_iff. right. rewrite <- (firstn_skipn (Nat.min limit 1000) (skipn offset full)). apply in_app_iff. left. exact I. }
  apply (C42_found _ _ _ _ _ _ _ _ _ _ A) in I' as (_ & _ & Sc). unfold scores in Sc. destruct q as [|c q]; [congruence|]. destruct Sc as (P & k & R & D). exists k. split; [exact R|].
  unfold demoted in D. split; intros Hd; destruct D as [(D & E)|[(D & E & E')|(D & E & E')]]; try congruence; try lia. rewrite E'. clear -E R. destruct R; cbn; lia.
Qed.
(* an exact match of the name comes before every other match with the same deprecation status *)
Theorem C43_exact lower r sep q kind stab hide limit offset n i m j : q <> "" ->
  In (n, i) (fst (search lower (from_registry r sep) (Some q) kind stab hide limit offset)) ->
  In (m, j) (fst (search lower (from_registry r sep) (Some q) kind stab hide limit offset)) ->
  lower (en_key (snd i)) = lower q -> lower (en_key (snd j)) <> lower q -> en_deprecated (snd i) = en_deprecated (snd j) ->
  m < n /\ exists a b c, fst (search lower (from_registry r sep) (Some q) kind stab hide limit offset) = app a ((n, i) :: app b ((m, j) :: c)).
Proof.
  intros Nq I J E N D. assert (L : m < n).
  { destruct (C43_score _ _ _ _ _ _ _ _ _ _ _ Nq I) as (ri & Ri & A & B). destruct (C43_score _ _ _ _ _ _ _ _ _ _ _ Nq J) as (rj & Rj & A' & B').
    assert (Ei : ri = 100). { rewrite E in Ri. eapply rating_fun; [exact Ri|]. apply ra_exact. reflexivity. }
    assert (Ej : rj <= 80). { destruct Rj; try lia. congruence. }
    destruct (en_deprecated (snd j)) eqn:Dj; rewrite D in *.
    - rewrite B, B' by reflexivity. subst ri. change (100 / 10) with 10. assert (rj / 10 <= 8); [|lia]. apply Nat.div_le_upper_bound; lia.
    - rewrite A, A' by reflexivity. lia. }
  split; [exact L|]. pose proof (C43_order lower r sep (Some q) kind stab hide limit offset) as St.
  set (l := fst (search lower (from_registry r sep) (Some q) kind stab hide limit offset)) in *. clearbody l. clear -I J L St.
  apply in_split in I as (a & t & ->). apply in_app_iff in J as [J|[J|J]].
  - exfalso. induction a as [|x a IH]; [destruct J|]. inversion St as [|? ? S1 F]; subst. destruct J as [->|J]; [|apply IH; assumption].
    rewrite Forall_forall in F. specialize (F (n, i)). cbn in F. assert (n <= m); [|lia]. apply F. apply in_app_iff. right. left. reflexivity.
  - injection J as -> ->. lia.
  - apply in_split in J as (b & c & ->). exists a, b, c. reflexivity.
Qed.
(* marking an object as deprecated takes away nine tenths of its score or a little more, and never hides it *)
Theorem C43_deprecated lower sep q k e n : q <> "" -> en_deprecated e = false ->
  scores lower sep (Some q) (k, e) n -> exists m, scores lower sep (Some q) (k, deprecate e) m /\ 0 < m /\ 10 * m <= n /\ n < 10 * m + 10.
Proof.
  intros Nq D Sc. unfold scores in *. destruct q as [|c q]; [congruence|]. destruct Sc as (P & x & R & [[_ E]|[(X & _)|(X & _)]]); cbn [snd] in *; try congruence. subst n.
  exists (Nat.max 1 (x / 10)). assert (B : 10 * Nat.max 1 (x / 10) <= x /\ x < 10 * Nat.max 1 (x / 10) + 10) by (destruct R; cbn; lia).
  split; [|lia]. split; [lia|]. exists x. cbn [deprecate en_key en_brief en_note en_deprecated]. split; [exact R|]. right. right. auto.
Qed.
Theorem C43_deprecated_only lower sep q k e m : q <> "" ->
  scores lower sep (Some q) (k, deprecate e) m -> en_deprecated e = false -> exists n, scores lower sep (Some q) (k, e) n /\ 10 * m <= n.
Proof.
  intros Nq Sc D. unfold scores in *. destruct q as [|c q]; [congruence|]. destruct Sc as (P & x & R & [[X _]|[(_ & _ & X)|(_ & L & E)]]); cbn [snd deprecate en_key en_brief en_note en_deprecated] in *; [discriminate|lia|].
  exists x. split; [|subst m; destruct R; cbn; lia]. split; [lia|]. exists x. split; [exact R|]. left. auto.
Qed.
Print Assumptions C43_order.
Print Assumptions C43_score.
Print Assumptions C43_exact.
Print Assumptions C43_deprecated.
Print Assumptions C43_deprecated_only.
Example C43_case :
  fst (search (fun s => s) (from_registry sample_search ".") (Some "http") None None false 10 0) =
    [(100, (KAttribute, sample_entry "http" "All of it." false)); (40, (KAttribute, sample_entry "net.peer" "The http peer." false));
     (8, (KAttribute, sample_entry "http.method" "A method." true))].
Proof. reflexivity. Qed.

(* ================= C44: namespaces ================= *)
Section Browse.
  Variables (r : sregistry) (sep : string) (order : list (string * entry) -> list (string * entry)).
  Hypothesis Hs : sep <> "".
  Hypothesis Ho : forall l, Permutation l (order l).
  Let cx := from_registry r sep.
  Let walked := app (order (cx_attrs cx)) (order (cx_templates cx)).
  Lemma walked_in kv : In kv walked -> fst kv = en_key (snd kv) /\ In (snd kv) (sr_attributes r).
  Proof.
    unfold walked. intros I. apply in_app_iff in I as [I|I]; (eapply Permutation_in in I; [|symmetry; apply Ho]); cbn in I; apply index_in in I as (E & I); apply filter_In in I; tauto.
  Qed.
  Lemma walked_all e : In e (sr_attributes r) -> exists v, In (en_key e, v) walked.
  Proof.
    intros I. unfold walked. destruct (en_template e) eqn:T.
    - destruct (index_all (filter en_template (sr_attributes r)) e) as (v & Hv); [apply filter_In; auto|]. exists v. apply in_app_iff. right. eapply Permutation_in; [apply Ho|exact Hv].
    - destruct (index_all (filter (fun e => negb (en_template e)) (sr_attributes r)) e) as (v & Hv); [apply filter_In; rewrite T; auto|].
      exists v. apply in_app_iff. left. eapply Permutation_in; [apply Ho|exact Hv].
  Qed.
  Lemma filter_split {A} (f : A -> bool) l : Permutation (app (filter (fun x => negb (f x)) l) (filter f l)) l.
  Proof.
    induction l as [|x l IH]; [reflexivity|]. cbn [filter]. destruct (f x); cbn [negb].
    - rewrite <- Permutation_middle. constructor. exact IH.
    - cbn [app]. constructor. exact IH.
  Qed.
  Lemma nodup_filter_keys (f : entry -> bool) l : NoDup (map en_key l) -> NoDup (map en_key (filter f l)).
  Proof.
    induction l as [|x l IH]; intros H; [constructor|]. cbn in *. inversion H as [|? ? N H']; subst. destruct (f x); cbn; [|apply IH, H'].
    constructor; [|apply IH, H']. intros I. apply N. apply in_map_iff in I as (y & E & I). rewrite <- E. apply in_map. apply filter_In in I. apply I.
  Qed.
  Lemma walked_perm : NoDup (map en_key (sr_attributes r)) -> Permutation walked (map (fun e => (en_key e, e)) (sr_attributes r)).
  Proof.
    intros N. unfold walked. rewrite <- !Ho. cbn. rewrite (index_unique _ (nodup_filter_keys _ _ N)), (index_unique _ (nodup_filter_keys _ _ N)).
    rewrite <- map_app. apply Permutation_map, filter_split.
  Qed.
  Variables (given : option string) (p : string).
  Hypothesis Hp : trimmed sep (opt_get given "") p.
  Let n := browse_namespace order cx given.
  Let start := {| ni_prefix := p; ni_sub := []; ni_attrs := []; ni_total := 0; ni_depth := 0 |}.
  Let done := fold_left (browse_step p sep) walked start.
  Lemma browse_done : ni_prefix n = p /\ ni_sub n = ni_sub done /\ ni_attrs n = stable_sort (fun a b => str_leb (fst a) (fst b)) (ni_attrs done) /\
    ni_total n = ni_total done /\ ni_depth n = ni_depth done.
  Proof.
    assert (E : trim_end_matches (String.length (opt_get given "")) sep (opt_get given "") = p).
    { eapply trimmed_fun; [apply trim_trimmed; [exact Hs|lia]|exact Hp]. }
    unfold n, browse_namespace. cbn [cx from_registry cx_separator]. rewrite E. cbn [ni_prefix ni_sub ni_attrs ni_total ni_depth]. repeat split. apply fold_prefix.
  Qed.
  Lemma browse_direct : Permutation (filter (fun kv => direct p sep (fst kv)) walked) (ni_attrs n).
  Proof. destruct browse_done as (_ & _ & E & _). rewrite E. unfold done. rewrite fold_attrs. apply stable_sort_perm. Qed.
  Lemma browse_subs ns : In ns (ni_sub n) <-> exists e t seg, In e (sr_attributes r) /\ remains p sep (en_key e) t /\ first_segment sep t seg /\ named p sep seg ns.
  Proof.
    destruct browse_done as (_ & E & _). rewrite E. unfold done. rewrite fold_sub. cbn [start ni_sub In]. split.
    - intros [[]|(kv & t & seg & I & X)]. destruct (walked_in _ I) as (K & I'). rewrite K in X. exists (snd kv), t, seg. auto.
    - intros (e & t & seg & I & X). right. destruct (walked_all _ I) as (v & Iv). exists (en_key e, v), t, seg. auto.
  Qed.
  Lemma browse_listed k : In k (map fst (ni_attrs n)) <-> exists e t, In e (sr_attributes r) /\ en_key e = k /\ remains p sep k t /\ ~ says sep t.
  Proof.
    rewrite in_map_iff. split.
    - intros (kv & <- & I). eapply Permutation_in in I; [|symmetry; apply browse_direct]. apply filter_In in I as (I & D). apply direct_iff in D as (t & D). destruct (walked_in _ I) as (K & I').
      exists (snd kv), t. auto.
    - intros (e & t & I & <- & D). destruct (walked_all _ I) as (v & Iv). exists (en_key e, v). split; [reflexivity|]. eapply Permutation_in; [apply browse_direct|].
      apply filter_In. split; [exact Iv|]. apply direct_iff. exists t. exact D.
  Qed.
End Browse.
Lemma filter_map {A B} (f : A -> B) (g : B -> bool) l : filter g (map f l) = map f (filter (fun x => g (f x)) l).
Proof. induction l as [|x l IH]; [reflexivity|]. cbn. destruct (g (f x)); cbn; rewrite IH; reflexivity. Qed.
Lemma filter_perm {A} (g : A -> bool) l l' : Permutation l l' -> Permutation (filter g l) (filter g l').
Proof.
  intros H. induction H as [|x l l' _ IH|x y l|l l' l'' _ IH _ IH']; cbn [filter]; [reflexivity| | |etransitivity; eassumption].
  - destruct (g x); [constructor|]; exact IH.
  - destruct (g x), (g y); try reflexivity. apply perm_swap.
Qed.

(* the namespace that is shown is the one asked for, without separators at its end *)
Theorem C44_prefix order r sep given : sep <> "" -> (forall l, Permutation l (order l)) -> exists p, trimmed sep (opt_get given "") p /\
  (forall p', trimmed sep (opt_get given "") p' -> p' = p) /\ ni_prefix (browse_namespace order (from_registry r sep) given) = p.
Proof.
  intros Hs Ho. exists (trim_end_matches (String.length (opt_get given "")) sep (opt_get given "")).
  assert (T : trimmed sep (opt_get given "") (trim_end_matches (String.length (opt_get given "")) sep (opt_get given ""))) by (apply trim_trimmed; [exact Hs|lia]).
  split; [exact T|]. split; [intros p' T'; eapply trimmed_fun; eassumption|]. apply (browse_done r sep order Hs given _ T).
Qed.
(* it counts the attributes below it, lists those directly in it by key, lists the namespaces directly in
   it, each once and sorted, and says how deep it goes *)
Theorem C44_namespace order r sep given p : sep <> "" -> (forall l, Permutation l (order l)) -> NoDup (map en_key (sr_attributes r)) ->
  trimmed sep (opt_get given "") p ->
  let n := browse_namespace order (from_registry r sep) given in
  (exists l, chosen (fun e => exists t, remains p sep (en_key e) t) (sr_attributes r) l /\ ni_total n = length l) /\
  (exists l, chosen (fun e => exists t, remains p sep (en_key e) t /\ ~ says sep t) (sr_attributes r) l /\
             Permutation (map (fun e => (en_key e, e)) l) (ni_attrs n)) /\
  StronglySorted (fun a b => str_cmp (fst a) (fst b) = Lt) (ni_attrs n) /\
  (forall ns, In ns (ni_sub n) <-> exists e t seg, In e (sr_attributes r) /\ remains p sep (en_key e) t /\ first_segment sep t seg /\ named p sep seg ns) /\
  StronglySorted (fun a b => str_cmp a b = Lt) (ni_sub n) /\
  (forall e t d, In e (sr_attributes r) -> remains p sep (en_key e) t -> segments sep t d -> d <= ni_depth n) /\
  (ni_depth n = 0 \/ exists e t, In e (sr_attributes r) /\ remains p sep (en_key e) t /\ segments sep t (ni_depth n)).
Proof.
  intros Hs Ho N Hp n. destruct (browse_done r sep order Hs given p Hp) as (_ & Es & Ea & Et & Ed). pose proof (walked_perm r sep order Ho N) as W.
  pose proof (browse_direct r sep order Hs given p Hp) as Dr.
  split; [|split; [|split; [|split; [|split; [|split]]]]].
  - exists (filter (fun e => lies p sep (en_key e)) (sr_attributes r)). split; [apply chosen_filter; intros e; apply lies_iff|].
    unfold n. rewrite Et, fold_total. cbn [ni_total Nat.add]. rewrite (Permutation_length (filter_perm _ _ _ W)), filter_map, map_length. reflexivity.
  - exists (filter (fun e => direct p sep (en_key e)) (sr_attributes r)). split; [apply chosen_filter; intros e; apply direct_iff|].
    unfold n. rewrite <- Dr. rewrite (filter_perm _ _ _ W), filter_map. reflexivity.
  - unfold n. assert (Nd : NoDup (map fst (ni_attrs (browse_namespace order (from_registry r sep) given)))).
    { eapply Permutation_NoDup; [apply Permutation_map, Dr|]. eapply Permutation_NoDup; [symmetry; apply Permutation_map, filter_perm, W|]. rewrite filter_map, map_map. cbn. apply nodup_filter_keys, N. }
    rewrite Ea in Nd |- *. assert (St := stable_sort_sorted (fun a b : string * entry => str_leb (fst a) (fst b))). specialize (St ltac:(intros x y; apply str_leb_total) ltac:(intros x y z; apply str_leb_trans)).
    match goal with |- StronglySorted _ (stable_sort _ ?l) => specialize (St l); set (m := stable_sort (fun a b : string * entry => str_leb (fst a) (fst b)) l) in * end.
    clearbody m. clear -St Nd. induction St as [|x m _ IH F]; [constructor|]. cbn in Nd. inversion Nd as [|? ? Nx Nm]; subst. constructor; [apply IH, Nm|].
    rewrite Forall_forall in F |- *. intros y Iy. specialize (F y Iy). unfold le, str_leb in F. destruct (str_cmp (fst x) (fst y)) eqn:C; [|reflexivity|discriminate].
    apply str_cmp_eq in C. destruct Nx. rewrite C. apply in_map, Iy.
  - intros ns. apply (browse_subs r sep order Hs Ho given p Hp).
  - unfold n. rewrite Es. apply fold_sorted. constructor.
  - intros e t d I R Sg. unfold n. rewrite Ed. destruct (walked_all r sep order Ho e I) as (v & Iv).
    destruct (fold_depth p sep Hs (app (order (cx_attrs (from_registry r sep))) (order (cx_templates (from_registry r sep)))) {| ni_prefix := p; ni_sub := []; ni_attrs := []; ni_total := 0; ni_depth := 0 |} _ eq_refl) as (_ & B & _).
    eapply B; [exact Iv|exact R|exact Sg].
  - unfold n. rewrite Ed. destruct (fold_depth p sep Hs (app (order (cx_attrs (from_registry r sep))) (order (cx_templates (from_registry r sep)))) {| ni_prefix := p; ni_sub := []; ni_attrs := []; ni_total := 0; ni_depth := 0 |} _ eq_refl) as (_ & _ & [C|(kv & t & I & X)]).
    + left. exact C.
    + right. destruct (walked_in r sep order Ho kv I) as (K & I'). rewrite K in X. exists (snd kv), t. split; [exact I'|exact X].
Qed.
(* every attribute below it is listed there, or lies in exactly one of the namespaces listed, never both *)
Theorem C44_cover order r sep given p e t : sep <> "" -> (forall l, Permutation l (order l)) ->
  trimmed sep (opt_get given "") p -> In e (sr_attributes r) -> remains p sep (en_key e) t ->
  let n := browse_namespace order (from_registry r sep) given in
  (In (en_key e) (map fst (ni_attrs n)) /\ forall ns, In ns (ni_sub n) -> ~ inside sep ns (en_key e)) \/
  (~ In (en_key e) (map fst (ni_attrs n)) /\ exists ns, In ns (ni_sub n) /\ inside sep ns (en_key e) /\
     forall ns', In ns' (ni_sub n) -> inside sep ns' (en_key e) -> ns' = ns).
Proof.
  intros Hs Ho Hp I R n.
  assert (Rf : forall k t t', remains p sep k t -> remains p sep k t' -> t = t'). { intros k a b A B. apply remainder_iff in A, B. congruence. }
  assert (In_ : forall ns seg, named p sep seg ns -> (inside sep ns (en_key e) <-> exists rest, t = seg ++ sep ++ rest)).
  { intros ns seg [(-> & ->)|(Np & ->)]; destruct R as [(X & R)|(X & R)]; try congruence; unfold inside; rewrite R.
    - reflexivity.
    - split; intros (rest & E); exists rest.
      + rewrite !str_app_assoc in E. apply str_app_inj_l, str_app_inj_l in E. exact E.
      + rewrite E, !str_app_assoc. reflexivity. }
  destruct (cut sep t) as [[seg rest]|] eqn:C.
  - right. split.
    + intros L. apply (browse_listed r sep order Hs Ho given p Hp) in L as (e' & t' & _ & _ & R' & D). rewrite (Rf _ _ _ R' R) in D. apply cut_none in D. congruence.
    + apply cut_some in C as (Et & Lm). exists (sub_namespace p sep seg). assert (Nm : named p sep seg (sub_namespace p sep seg)) by (apply named_iff; reflexivity). split; [|split].
      * apply (browse_subs r sep order Hs Ho given p Hp). exists e, t, seg. split; [exact I|]. split; [exact R|]. split; [exists rest; auto|exact Nm].
      * apply (In_ _ seg Nm). exists rest. exact Et.
      * intros ns' I' Ins. apply (browse_subs r sep order Hs Ho given p Hp) in I' as (e' & t' & seg' & _ & _ & (rest'' & E'' & Lm'') & Nm'). apply (In_ _ seg' Nm') in Ins as (rest' & E').
        assert (seg' = seg); [|subst seg'; apply named_iff in Nm'; exact Nm'].
        pose proof (Lm _ _ E') as Le. rewrite Et in E'. destruct (app_split _ _ _ _ E' Le) as (d & -> & Ed). destruct (String.eqb_spec d "") as [->|Nd]; [apply str_app_nil_r|]. exfalso.
        rewrite <- str_app_assoc in Ed. destruct (app_split _ _ _ _ Ed) as (y & Ey & _); [rewrite str_length_app; lia|].
        rewrite str_app_assoc, <- (str_app_assoc d), Ey, str_app_assoc in E''. specialize (Lm'' _ _ E''). rewrite str_length_app in Lm''. destruct d; [congruence|]. cbn in Lm''. lia.
  - left. apply cut_none in C. split.
    + apply (browse_listed r sep order Hs Ho given p Hp). exists e, t. auto.
    + intros ns L Ins. apply (browse_subs r sep order Hs Ho given p Hp) in L as (_ & _ & seg & _ & _ & _ & Nm). apply (In_ _ seg Nm) in Ins as (rest & ->). apply C. exists seg, rest. reflexivity.
Qed.
(* following the listed namespaces leads to every attribute whose key has no empty segment *)
Theorem C44_reach order r sep given p e t : sep <> "" -> (forall l, Permutation l (order l)) ->
  trimmed sep (opt_get given "") p -> In e (sr_attributes r) -> remains p sep (en_key e) t -> neat sep (en_key e) ->
  reached (browse_namespace order (from_registry r sep)) given (en_key e).
Proof.
  intros Hs Ho Hp I R Nt. remember (String.length t) as k eqn:Ek. assert (Lk : String.length t <= k) by lia. clear Ek. revert given p t Hp R Lk.
  induction k as [|k IH]; intros given p t Hp R Lk; (destruct (cut sep t) as [[seg rest]|] eqn:C;
    [|apply cut_none in C; assert (L : In (en_key e) (map fst (ni_attrs (browse_namespace order (from_registry r sep) given))));
      [apply (browse_listed r sep order Hs Ho given p Hp); exists e, t; auto|]; apply in_map_iff in L as (kv & <- & L); apply rc_here, L]).
  - apply cut_some in C as (-> & _). rewrite !str_length_app in Lk. destruct sep; [congruence|cbn in Lk; lia].
  - apply cut_some in C as (Et & Lm). assert (Nm : named p sep seg (sub_namespace p sep seg)) by (apply named_iff; reflexivity).
    assert (Ek : en_key e = sub_namespace p sep seg ++ sep ++ rest).
    { destruct R as [(-> & ->)|(Np & ->)]; rewrite Et; destruct Nm as [(X & ->)|(X & ->)]; try congruence. rewrite !str_app_assoc. reflexivity. }
    destruct (Nt _ _ Ek) as (Ne & Nl). eapply rc_below.
    + apply (browse_subs r sep order Hs Ho given p Hp). exists e, t, seg. split; [exact I|]. split; [exact R|]. split; [exists rest; auto|exact Nm].
    + apply (IH (Some (sub_namespace p sep seg)) (sub_namespace p sep seg) rest).
      * split; [exists 0; cbn; rewrite str_app_nil_r; reflexivity|exact Nl].
      * right. split; [exact Ne|exact Ek].
      * rewrite Et, !str_length_app in Lk. destruct sep; [congruence|cbn in Lk; lia].
Qed.
(* an attribute with an empty segment in its key is counted, but no listed namespace leads to it *)
Theorem C44_reach_refuted : exists r e, In e (sr_attributes r) /\ NoDup (map en_key (sr_attributes r)) /\
  ni_total (browse_namespace (fun l => l) (from_registry r ".") None) = 1 /\
  ~ reached (browse_namespace (fun l => l) (from_registry r ".")) None (en_key e).
Proof.
  exists (sample_attributes [sample_entry "a..b" "" false]), (sample_entry "a..b" "" false). split; [left; reflexivity|]. split; [repeat constructor; intros []|]. split; [reflexivity|].
  set (browse := browse_namespace (fun l => l) (from_registry (sample_attributes [sample_entry "a..b" "" false]) ".")).
  assert (G : forall p k, reached browse p k -> p = None \/ p = Some "a" \/ p = Some "a." -> False).
  { intros p k H. induction H as [p kv I|p ns k I _ IH]; intros P.
    - destruct P as [->|[->| ->]]; vm_compute in I; destruct I.
    - apply IH. destruct P as [->|[->| ->]]; vm_compute in I; destruct I as [<-|[]]; auto. }
  intros H. apply (G _ _ H). auto.
Qed.
(* attributes that share their key count as one *)
Theorem C44_duplicates_refuted : exists r l, chosen (fun e => exists t, remains "" "." (en_key e) t) (sr_attributes r) l /\
  ni_total (browse_namespace (fun l => l) (from_registry r ".") None) <> length l.
Proof.
  exists (sample_attributes [sample_entry "a" "One." false; sample_entry "a" "Other." false]), [sample_entry "a" "One." false; sample_entry "a" "Other." false]. split; [|cbn; lia].
  repeat (apply ch_keep; [exists "a"; left; auto|]). constructor.
Qed.
(* nothing depends on the order of the hash maps *)
Theorem C44_order order order' r sep given : sep <> "" -> (forall l, Permutation l (order l)) -> (forall l, Permutation l (order' l)) -> NoDup (map en_key (sr_attributes r)) ->
  browse_namespace order (from_registry r sep) given = browse_namespace order' (from_registry r sep) given.
Proof.
  intros Hs Ho Ho' N. destruct (C44_prefix order r sep given Hs Ho) as (p & Hp & Up & Ep). destruct (C44_prefix order' r sep given Hs Ho') as (p' & Hp' & _ & Ep'). rewrite (Up _ Hp') in *.
  pose proof (C44_namespace order r sep given p Hs Ho N Hp) as A. pose proof (C44_namespace order' r sep given p Hs Ho' N Hp) as B. cbv zeta in A, B.
  destruct A as (_ & _ & A3 & A4 & A5 & A6 & A7). destruct B as (_ & _ & B3 & B4 & B5 & B6 & B7).
  pose proof (browse_done r sep order Hs given p Hp) as (_ & _ & _ & At & _). pose proof (browse_done r sep order' Hs given p Hp) as (_ & _ & _ & Bt & _).
  pose proof (browse_direct r sep order Hs given p Hp) as Da. pose proof (browse_direct r sep order' Hs given p Hp) as Db.
  pose proof (walked_perm r sep order Ho N) as Wa. pose proof (walked_perm r sep order' Ho' N) as Wb. rewrite fold_total in At, Bt. cbn [ni_total Nat.add] in At, Bt.
  assert (Tt : ni_total (browse_namespace order (from_registry r sep) given) = ni_total (browse_namespace order' (from_registry r sep) given)).
  { rewrite At, Bt, (Permutation_length (filter_perm _ _ _ Wa)), (Permutation_length (filter_perm _ _ _ Wb)). reflexivity. }
  assert (Pa : Permutation (ni_attrs (browse_namespace order (from_registry r sep) given)) (ni_attrs (browse_namespace order' (from_registry r sep) given))).
  { rewrite <- Da, <- Db. apply filter_perm. rewrite Wa, Wb. reflexivity. }
  clear At Bt Da Db Wa Wb. set (x := browse_namespace order (from_registry r sep) given) in *. set (y := browse_namespace order' (from_registry r sep) given) in *. clearbody x y.
  assert (Sq : forall (A : Type) (lt : A -> A -> Prop), (forall a, ~ lt a a) -> (forall a b, lt a b -> lt b a -> False) -> forall l l', StronglySorted lt l -> StronglySorted lt l' -> (forall a, In a l <-> In a l') -> l = l').
  { clear. intros A lt Ir As l l' H. revert l'. induction H as [|a l H IH F]; intros l' H' Q.
    - destruct l' as [|b l']; [reflexivity|]. destruct (proj2 (Q b)). left. reflexivity.
    - destruct l' as [|b l']; [destruct (proj1 (Q a)); left; reflexivity|]. inversion H' as [|? ? H1 F']; subst. rewrite Forall_forall in F, F'.
      assert (a = b). { destruct (proj1 (Q a) (or_introl eq_refl)) as [->|Ia]; [reflexivity|]. destruct (proj2 (Q b) (or_introl eq_refl)) as [->|Ib]; [reflexivity|]. destruct (As _ _ (F _ Ib) (F' _ Ia)). }
      subst b. f_equal. apply IH; [exact H1|]. intros c. specialize (Q c). cbn in Q. split; intros Ic.
      + destruct (proj1 Q (or_intror Ic)) as [->|X]; [destruct (Ir _ (F _ Ic))|exact X].
      + destruct (proj2 Q (or_intror Ic)) as [->|X]; [destruct (Ir _ (F' _ Ic))|exact X]. }
  assert (Ea : ni_attrs x = ni_attrs y).
  { apply (Sq _ (fun a b => str_cmp (fst a) (fst b) = Lt)); [intros a; apply str_lt_irrefl|intros a b X Y; apply (str_lt_irrefl (fst a)); eapply str_lt_trans; eassumption|exact A3|exact B3|].
    intros a. apply (Permutation_in' eq_refl Pa). }
  assert (Es : ni_sub x = ni_sub y).
  { apply (Sq _ (fun a b => str_cmp a b = Lt)); [intros a; apply str_lt_irrefl|intros a b X Y; apply (str_lt_irrefl a); eapply str_lt_trans; eassumption|exact A5|exact B5|].
    intros ns. rewrite A4, B4. reflexivity. }
  assert (Ed : ni_depth x = ni_depth y).
  { assert (H : ni_depth x <= ni_depth y). { destruct A7 as [->|(e & t & I & R & Sg)]; [lia|]. eapply B6; eassumption. }
    assert (H' : ni_depth y <= ni_depth x). { destruct B7 as [->|(e & t & I & R & Sg)]; [lia|]. eapply A6; eassumption. }
    lia. }
  destruct x, y. cbn in *. congruence.
Qed.
Print Assumptions C44_prefix.
Print Assumptions C44_namespace.
Print Assumptions C44_cover.
Print Assumptions C44_reach.
Print Assumptions C44_reach_refuted.
Print Assumptions C44_duplicates_refuted.
Print Assumptions C44_order.
Example C44_case :
  let n := browse_namespace (fun l => l) (from_registry (sample_attributes [sample_entry "http.url" "" false; sample_entry "http.request.method" "" false; sample_entry "http" "" false; sample_entry "http.request.header.size" "" true; sample_entry "db" "" false]) ".") (Some "http..") in
  ni_prefix n = "http" /\ ni_total n = 3 /\ map fst (ni_attrs n) = ["http.url"] /\ ni_sub n = ["http.request"] /\ ni_depth n = 3.
Proof. repeat split. Qed.
Example C44_reach_case : neat "." "db.op" /\ ~ neat "." "a..b".
Proof.
  split.
  - intros a b E. assert (a = "db") as ->.
    { destruct a as [|x1 [|x2 [|x3 [|x4 [|x5 a]]]]]; cbn in E; try discriminate; [injection E as <- <-; reflexivity|]. injection E as _ _ _ _ _ E. destruct a; discriminate. }
    split; [discriminate|]. intros c. destruct c as [|y1 [|y2 [|y3 c]]]; discriminate.
  - intros H. destruct (H "a." "b" eq_refl) as (_ & X). apply (X "a"). reflexivity.
Qed.

(* ================= C73: lookups ================= *)
Lemma last_index (P : entry -> Prop) (f : entry -> bool) l k e : (forall x, f x = true <-> P x) ->
  (slookup k (index (filter f l)) = Some e <-> last_named P l k e).
Proof.
  intros H. rewrite index_lookup. unfold last_named. split.
  - intros (K & a & b & E & N). split; [exact K|]. revert a E. induction l as [|x l IH]; intros a E; [destruct a; discriminate|]. cbn [filter] in E. destruct (f x) eqn:Fx.
    + destruct a as [|y a]; cbn in E; injection E as -> E.
      * split; [apply H, Fx|]. exists [], l. split; [reflexivity|]. intros z Iz Pz Kz. apply N. rewrite <- E, <- Kz. apply in_map, filter_In. split; [exact Iz|apply H, Pz].
      * destruct (IH _ E) as (Pe & a' & b' & -> & Nb). split; [exact Pe|]. exists (y :: a'), b'. split; [reflexivity|exact Nb].
    + destruct (IH _ E) as (Pe & a' & b' & -> & Nb). split; [exact Pe|]. exists (x :: a'), b'. split; [reflexivity|exact Nb].
  - intros (K & Pe & a & b & -> & N). split; [exact K|]. rewrite filter_app. cbn [filter]. rewrite (proj2 (H e) Pe). exists (filter f a), (filter f b). split; [reflexivity|].
    intros I. apply in_map_iff in I as (x & Kx & I). apply filter_In in I as (I & Fx). apply (N x I); [apply H, Fx|exact Kx].
Qed.
Lemma last_index_all l k e : slookup k (index l) = Some e <-> last_named (fun _ => True) l k e.
Proof. rewrite <- (last_index (fun _ => True) (fun _ => true)); [|tauto]. replace (filter (fun _ => true) l) with l; [reflexivity|]. induction l as [|x l IH]; [reflexivity|]. cbn. rewrite <- IH. reflexivity. Qed.
(* looking up a signal by its name gives the last one with that name in the registry *)
Theorem C73_signals r sep k e :
  (get_metric (from_registry r sep) k = Some e <-> last_named (fun _ => True) (sr_metrics r) k e) /\
  (get_span (from_registry r sep) k = Some e <-> last_named (fun _ => True) (sr_spans r) k e) /\
  (get_event (from_registry r sep) k = Some e <-> last_named (fun _ => True) (sr_events r) k e) /\
  (get_entity (from_registry r sep) k = Some e <-> last_named (fun _ => True) (sr_entities r) k e).
Proof. split; [|split; [|split]]; apply last_index_all. Qed.
(* an attribute: the last one with that key that is no template; else the last template with that key *)
Theorem C73_attribute r sep k e :
  (get_attribute (from_registry r sep) k = Some e <-> last_named (fun x => en_template x = false) (sr_attributes r) k e) /\
  (get_template (from_registry r sep) k = Some e <-> last_named (fun x => en_template x = true) (sr_attributes r) k e) /\
  (served_attribute (from_registry r sep) k = Some e <->
     last_named (fun x => en_template x = false) (sr_attributes r) k e \/
     ((forall x, ~ last_named (fun x => en_template x = false) (sr_attributes r) k x) /\ last_named (fun x => en_template x = true) (sr_attributes r) k e)).
Proof.
  assert (A : forall x, get_attribute (from_registry r sep) k = Some x <-> last_named (fun x => en_template x = false) (sr_attributes r) k x).
  { intros x. apply last_index. intros y. destruct (en_template y); cbn; intuition congruence. }
  assert (T : forall x, get_template (from_registry r sep) k = Some x <-> last_named (fun x => en_template x = true) (sr_attributes r) k x).
  { intros x. apply last_index. intros y. reflexivity. }
  split; [apply A|]. split; [apply T|]. unfold served_attribute. rewrite <- A, <- T. destruct (get_attribute (from_registry r sep) k) as [v|] eqn:E; cbn [opt_or].
  - split; [auto|]. intros [H|(H & _)]; [exact H|]. destruct (H v). apply A. reflexivity.
  - split; [|intros [H|(_ & H)]; [discriminate|exact H]]. intros H. right. split; [|exact H]. intros x Hx. apply A in Hx. discriminate.
Qed.
Lemma some_dec (P : entry -> Prop) l k : (forall x, P x \/ ~ P x) ->
  (exists z, In z l /\ P z /\ en_key z = k) \/ ~ exists z, In z l /\ P z /\ en_key z = k.
Proof.
  intros D. induction l as [|y l IH]; [right; intros (z & [] & _)|]. destruct IH as [(z & Iz & H)|N]; [left; exists z; split; [right; exact Iz|exact H]|].
  destruct (D y) as [Py|Ny]; [destruct (string_dec (en_key y) k) as [Ky|Ny]|].
  - left. exists y. split; [left; reflexivity|auto].
  - right. intros (z & [<-|Iz] & Pz & Kz); [congruence|]. apply N. exists z. auto.
  - right. intros (z & [<-|Iz] & Pz & Kz); [contradiction|]. apply N. exists z. auto.
Qed.
Lemma last_present (P : entry -> Prop) l k : (forall x, P x \/ ~ P x) -> ((exists e, last_named P l k e) <-> exists e, In e l /\ P e /\ en_key e = k).
Proof.
  intros D. split.
  - intros (e & K & Pe & a & b & -> & _). exists e. split; [apply in_app_iff; right; left; reflexivity|auto].
  - induction l as [|x l IH]; [intros (e & [] & _)|]. intros (e & I & Pe & K). destruct (some_dec P l k D) as [X|N].
    + destruct (IH X) as (v & Kv & Pv & a & b & -> & Nb). exists v. split; [exact Kv|]. split; [exact Pv|]. exists (x :: a), b. split; [reflexivity|exact Nb].
    + destruct I as [->|I]; [|destruct N; exists e; auto]. exists e. split; [exact K|]. split; [exact Pe|]. exists [], l. split; [reflexivity|]. intros w Iw Pw Kw. apply N. exists w. auto.
Qed.
(* a lookup fails only when the registry has nothing of that name *)
Theorem C73_absent r sep k :
  (get_metric (from_registry r sep) k = None <-> ~ In k (map en_key (sr_metrics r))) /\
  (get_span (from_registry r sep) k = None <-> ~ In k (map en_key (sr_spans r))) /\
  (get_event (from_registry r sep) k = None <-> ~ In k (map en_key (sr_events r))) /\
  (get_entity (from_registry r sep) k = None <-> ~ In k (map en_key (sr_entities r))) /\
  (served_attribute (from_registry r sep) k = None <-> ~ In k (map en_key (sr_attributes r))).
Proof.
  assert (G : forall l, slookup k (index l) = None <-> ~ In k (map en_key l)).
  { intros l. split.
    - intros H I. apply in_map_iff in I as (e & K & I). destruct (proj2 (last_present (fun _ => True) l k ltac:(auto))) as (v & Hv); [exists e; auto|]. apply last_index_all in Hv. congruence.
    - intros N. destruct (slookup k (index l)) as [v|] eqn:E; [|reflexivity]. apply last_index_all in E as (K & _ & a & b & -> & _). destruct N. rewrite <- K. apply in_map, in_app_iff. right. left. reflexivity. }
  split; [apply G|]. split; [apply G|]. split; [apply G|]. split; [apply G|]. unfold served_attribute, get_attribute, get_template. cbn [from_registry cx_attrs cx_templates].
  destruct (slookup k (index (filter (fun e => negb (en_template e)) (sr_attributes r)))) as [v|] eqn:E; cbn [opt_or].
  - split; [discriminate|]. intros N. apply last_index_all in E as (K & _ & a & b & E & _). destruct N. rewrite <- K. apply in_map.
    assert (I : In v (filter (fun e => negb (en_template e)) (sr_attributes r))) by (rewrite E; apply in_app_iff; right; left; reflexivity). apply filter_In in I. apply I.
  - rewrite G. apply G in E. split; intros N I.
    + apply in_map_iff in I as (e & <- & I). destruct (en_template e) eqn:T; [apply N|apply E]; apply in_map, filter_In; rewrite ?T; auto.
    + apply N. apply in_map_iff in I as (e & <- & I). apply filter_In in I. apply in_map, I.
Qed.

(* ---------- templates ---------- *)
Section ByWeight.
  Context {A : Type} (w : A -> nat).
  Notation leb := (fun a b => Nat.leb (w b) (w a)).
  Lemma weight_insert x l n : filter (fun y => Nat.eqb (w y) n) (sort_insert leb x l) = filter (fun y => Nat.eqb (w y) n) (x :: l).
  Proof.
    induction l as [|y l IH]; [reflexivity|]. cbn [sort_insert]. destruct (Nat.leb (w y) (w x)) eqn:E; [reflexivity|]. cbn [filter] in *. rewrite IH.
    apply Nat.leb_gt in E. destruct (Nat.eqb_spec (w x) n), (Nat.eqb_spec (w y) n); try reflexivity. lia.
  Qed.
  Lemma weight_filter l n : filter (fun y => Nat.eqb (w y) n) (stable_sort leb l) = filter (fun y => Nat.eqb (w y) n) l.
  Proof. induction l as [|x l IH]; [reflexivity|]. change (stable_sort leb (x :: l)) with (sort_insert leb x (stable_sort leb l)). rewrite weight_insert. cbn [filter]. rewrite IH. reflexivity. Qed.
  Lemma find_split (f : A -> bool) l x : find f l = Some x <-> f x = true /\ exists a b, l = app a (x :: b) /\ forall y, In y a -> f y = false.
  Proof.
    split.
    - induction l as [|y l IH]; [discriminate|]. cbn [find]. destruct (f y) eqn:E.
      + intros H. injection H as ->. split; [exact E|]. exists [], l. split; [reflexivity|]. intros z [].
      + intros H. destruct (IH H) as (Fx & a & b & -> & N). split; [exact Fx|]. exists (y :: a), b. split; [reflexivity|]. intros z [<-|I]; [exact E|apply N, I].
    - intros (Fx & a & b & -> & N). induction a as [|y a IH]; cbn [app find]; [rewrite Fx; reflexivity|]. rewrite (N y) by (left; reflexivity). apply IH. intros z I. apply N. right. exact I.
  Qed.
  Lemma find_heaviest (f : A -> bool) l x : find f (stable_sort leb l) = Some x <->
    f x = true /\ exists a b, l = app a (x :: b) /\ (forall y, In y a -> f y = true -> w y < w x) /\ (forall y, In y b -> f y = true -> w y <= w x).
  Proof.
    assert (St : StronglySorted (le leb) (stable_sort leb l)).
    { apply stable_sort_sorted; [intros a b; rewrite !Nat.leb_le; lia|intros a b c; rewrite !Nat.leb_le; lia]. }
    assert (Half : forall z, find f (stable_sort leb l) = Some z -> f z = true /\ exists a b, l = app a (z :: b) /\ (forall y, In y a -> f y = true -> w y < w z) /\ (forall y, In y b -> f y = true -> w y <= w z)).
    { intros z H. apply find_split in H as (Fz & a & b & E & N).
      assert (Top : forall y, In y l -> f y = true -> w y <= w z).
      { intros y I Fy. eapply Permutation_in in I; [|apply (stable_sort_perm leb)]. rewrite E in I. apply in_app_iff in I as [I|[->|I]]; [rewrite (N y I) in Fy; discriminate|lia|].
        rewrite E in St. clear -St I. induction a as [|c a IH]; cbn [app] in St; inversion St as [|? ? S1 F]; subst; [|apply IH, S1]. rewrite Forall_forall in F. specialize (F y I). apply Nat.leb_le in F. exact F. }
      split; [exact Fz|].
      assert (X : find f (filter (fun y => Nat.eqb (w y) (w z)) l) = Some z).
      { rewrite <- weight_filter, E, filter_app. cbn [filter]. rewrite Nat.eqb_refl. apply find_split. split; [exact Fz|]. exists (filter (fun y => Nat.eqb (w y) (w z)) a), (filter (fun y => Nat.eqb (w y) (w z)) b).
        split; [reflexivity|]. intros y I. apply filter_In in I. apply N, I. }
      assert (Y : exists a b, l = app a (z :: b) /\ forall y, In y a -> f y = true -> w y <> w z).
      { clear -X. induction l as [|c l IH]; [discriminate|]. cbn [filter] in X. destruct (Nat.eqb_spec (w c) (w z)) as [Ew|Nw].
        - cbn [find] in X. destruct (f c) eqn:Fc.
          + injection X as ->. exists [], l. split; [reflexivity|]. intros y [].
          + destruct (IH X) as (a & b & -> & H). exists (c :: a), b. split; [reflexivity|]. intros y [<-|I]; [congruence|apply H, I].
        - destruct (IH X) as (a & b & -> & H). exists (c :: a), b. split; [reflexivity|]. intros y [<-|I]; [intros _; exact Nw|apply H, I]. }
      destruct Y as (a' & b' & El & H). exists a', b'. split; [exact El|]. split.
      - intros y I Fy. assert (w y <= w z) by (apply Top; [rewrite El; apply in_app_iff; left; exact I|exact Fy]). specialize (H y I Fy). lia.
      - intros y I Fy. apply Top; [rewrite El; apply in_app_iff; right; right; exact I|exact Fy]. }
    split; [apply Half|]. intros (Fx & a & b & El & B1 & B2). destruct (find f (stable_sort leb l)) as [z|] eqn:Ez.
    - destruct (Half z eq_refl) as (Fz & a' & b' & El' & B1' & B2'). f_equal. clear Half St Ez. revert a' El' B1'. rewrite El. clear l El. revert B1. induction a as [|c a IH]; intros B1 a' El' B1'.
      + destruct a' as [|c' a']; cbn in El'; injection El' as -> El'; [reflexivity|]. exfalso.
        assert (w c' < w z) by (apply B1'; [left; reflexivity|exact Fx]). assert (w z <= w c'); [|lia]. apply B2; [rewrite El'; apply in_app_iff; right; left; reflexivity|exact Fz].
      + destruct a' as [|c' a']; cbn in El'; injection El' as -> El'.
        * exfalso. assert (w z < w x) by (apply B1; [left; reflexivity|exact Fz]). assert (w x <= w z); [|lia]. apply B2'; [rewrite <- El'; apply in_app_iff; right; left; reflexivity|exact Fx].
        * eapply IH; [intros y I; apply B1; right; exact I|exact El'|intros y I; apply B1'; right; exact I].
    - exfalso. eapply List.find_none in Ez; [|eapply Permutation_in; [apply (stable_sort_perm leb)|rewrite El; apply in_app_iff; right; left; reflexivity]]. congruence.
  Qed.
End ByWeight.
Lemma split_filter {A} (f : A -> bool) l x : forall a b, filter f l = app a (x :: b) <-> exists a' b', l = app a' (x :: b') /\ filter f a' = a /\ filter f b' = b /\ f x = true.
Proof.
  induction l as [|y l IH]; intros a b.
  - split; [intros H; destruct a; discriminate|]. intros (a' & b' & H & _). destruct a'; discriminate.
  - split.
    + intros H. cbn [filter] in H. destruct (f y) eqn:E.
      * destruct a as [|c a]; cbn in H; injection H as -> H.
        -- exists [], l. auto.
        -- apply IH in H as (a' & b' & -> & <- & <- & Fx). exists (c :: a'), b'. cbn. rewrite E. auto.
      * apply IH in H as (a' & b' & -> & <- & <- & Fx). exists (y :: a'), b'. cbn. rewrite E. auto.
    + intros (a' & b' & -> & <- & <- & Fx). rewrite filter_app. cbn. rewrite Fx. reflexivity.
Qed.
(* the template for an attribute name is the one with the longest key that the name begins with *)
Theorem C73_template r sep name e : find_template (from_registry r sep) name = Some e <-> longest_template (sr_attributes r) name e.
Proof.
  set (fits := fun x : entry => en_template x = true /\ exists t, name = en_key x ++ t).
  change (find_template (from_registry r sep) name = Some e <-> fits e /\ exists a b, sr_attributes r = app a (e :: b) /\
    (forall x, In x a -> fits x -> String.length (en_key x) < String.length (en_key e)) /\ (forall x, In x b -> fits x -> String.length (en_key x) <= String.length (en_key e))).
  unfold find_template. cbn [from_registry cx_by_length].
  set (w := fun kv : string * entry => String.length (fst kv)). set (f := fun kv : string * entry => starts_with (fst kv) name). set (g := fun x : entry => (en_key x, x)).
  change (option_map snd (find f (stable_sort (fun a b => Nat.leb (w b) (w a)) (map g (filter en_template (sr_attributes r))))) = Some e <-> fits e /\ exists a b, sr_attributes r = app a (e :: b) /\
    (forall x, In x a -> fits x -> String.length (en_key x) < String.length (en_key e)) /\ (forall x, In x b -> fits x -> String.length (en_key x) <= String.length (en_key e))).
  assert (Fg : forall x, en_template x = true -> (f (g x) = true <-> fits x)).
  { intros x T. unfold f, g, fits. cbn [fst]. rewrite starts_with_spec. tauto. }
  transitivity (find f (stable_sort (fun a b => Nat.leb (w b) (w a)) (map g (filter en_template (sr_attributes r)))) = Some (g e)).
  - split; [|intros ->; reflexivity]. intros H. destruct (find f (stable_sort (fun a b => Nat.leb (w b) (w a)) (map g (filter en_template (sr_attributes r))))) as [kv|] eqn:E; [|discriminate]. cbn in H. injection H as <-.
    apply find_some in E as (I & _). eapply Permutation_in in I; [|symmetry; apply stable_sort_perm]. apply in_map_iff in I as (x & <- & _). reflexivity.
  - rewrite find_heaviest. split.
    + intros (Fe & a & b & E & B1 & B2).
      assert (X : exists a0 b0, filter en_template (sr_attributes r) = app a0 (e :: b0) /\ map g a0 = a /\ map g b0 = b).
      { clear -E. revert E. generalize (filter en_template (sr_attributes r)) as l. intros l E. revert a E. induction l as [|x l IH]; intros a E; [destruct a; discriminate|]. destruct a as [|c a]; cbn in E.
        - unfold g at 1 3 in E. injection E as _ -> <-. exists [], l. auto.
        - injection E as <- E. destruct (IH _ E) as (a0 & b0 & -> & <- & <-). exists (x :: a0), b0. auto. }
      destruct X as (a0 & b0 & X & <- & <-). apply split_filter in X as (a' & b' & El & <- & <- & Te). split; [apply (Fg e Te), Fe|]. exists a', b'. split; [exact El|]. split.
      * intros x I H. apply (B1 (g x)); [apply in_map, filter_In; split; [exact I|apply H]|apply Fg; [apply H|exact H]].
      * intros x I H. apply (B2 (g x)); [apply in_map, filter_In; split; [exact I|apply H]|apply Fg; [apply H|exact H]].
    + intros (He & a & b & E & B1 & B2). split; [apply Fg; [apply He|exact He]|]. exists (map g (filter en_template a)), (map g (filter en_template b)). split; [|split].
      * rewrite E, filter_app. cbn [filter]. rewrite (proj1 He). rewrite map_app. reflexivity.
      * intros y I Fy. apply in_map_iff in I as (x & <- & I). apply filter_In in I as (I & T). apply (B1 x I). apply Fg; assumption.
      * intros y I Fy. apply in_map_iff in I as (x & <- & I). apply filter_In in I as (I & T). apply (B2 x I). apply Fg; assumption.
Qed.
(* the template need not end where a segment of the name ends *)
Theorem C73_segment_refuted : exists r name e, find_template (from_registry r ".") name = Some e /\ name <> en_key e /\ ~ inside "." (en_key e) name.
Proof.
  exists (sample_attributes [sample_template "http.header" ""]), "http.headers.size", (sample_template "http.header" ""). split; [reflexivity|]. split; [discriminate|]. intros (t & H). discriminate.
Qed.
(* of two templates with the same key, one is found under its key and the other under the names
   it is for *)
Theorem C73_two_answers_refuted : exists r k e f, get_template (from_registry r ".") k = Some e /\ find_template (from_registry r ".") k = Some f /\ e <> f.
Proof.
  exists (sample_attributes [sample_template "http.header" "One."; sample_template "http.header" "Other."]), "http.header", (sample_template "http.header" "Other."), (sample_template "http.header" "One.").
  split; [reflexivity|]. split; [reflexivity|discriminate].
Qed.
Print Assumptions C73_two_answers_refuted.
Print Assumptions C73_signals.
Print Assumptions C73_attribute.
Print Assumptions C73_absent.
Print Assumptions C73_template.
Print Assumptions C73_segment_refuted.
Example C73_case : find_template (from_registry (sample_attributes [sample_template "http" ""; sample_template "http.header" "One."; sample_template "http.header" "Other."]) ".") "http.header.size" =
  Some (sample_template "http.header" "One.") /\
  served_attribute (from_registry (sample_attributes [sample_entry "a" "One." false; sample_template "b" ""; sample_entry "a" "Other." false]) ".") "a" = Some (sample_entry "a" "Other." false).
Proof. split; reflexivity. Qed.
