(* C101: the HTTP server. *)
From Coq Require Import String Ascii Bool Arith NArith Lia List.
Import ListNotations.
From Verif Require Import Base BaseProofs Json SemTypes Str StrProofs SearchModel ServeModel ServeSpec.
From Verif Require CodeSpec CodeModel CodeProofs SearchSpec PropSearch ManifestSpec.
Local Open Scope string_scope.

(* ---------- decoding ---------- *)
Lemma hex_iff c n : hex_digit c = Some n <-> hex_value c n.
Proof.
  split.
  - intros H. unfold hex_value. revert H. destruct c as [[] [] [] [] [] [] [] []]; vm_compute; intros H; try discriminate; injection H as <-; auto.
  - intros [H|H]; do 16 (destruct n as [|n]; [vm_compute in H; injection H as <-; reflexivity|]); destruct n; discriminate.
Qed.
Lemma decode_encodes raw s : encodes raw s -> percent_decode raw = s.
Proof.
  induction 1 as [|c raw s Hp _ _ IH|h l a b c raw s Hh Hl Hc _ IH]; [reflexivity| |].
  - cbn [percent_decode]. destruct (Ascii.eqb_spec c "%"); [congruence|]. rewrite IH. reflexivity.
  - cbn [percent_decode]. change (Ascii.eqb "%" "%") with true. cbv iota. apply hex_iff in Hh, Hl. rewrite Hh, Hl, <- Hc, ascii_nat_embedding, IH. reflexivity.
Qed.
Lemma hex_no_slash h a : hex_value h a -> Ascii.eqb slash h = false.
Proof. intros H. apply hex_iff in H. destruct (Ascii.eqb_spec slash h) as [<-|]; [discriminate|reflexivity]. Qed.
Lemma encodes_segment raw s : encodes raw s -> any_char (Ascii.eqb slash) raw = false.
Proof.
  induction 1 as [|c raw s _ Hs _ IH|h l a b c raw s Hh Hl Hc _ IH]; [reflexivity| |]; cbn [any_char].
  - rewrite IH, orb_false_r. destruct (Ascii.eqb_spec slash c) as [E|]; [|reflexivity]. destruct (Hs (eq_sym E)).
  - rewrite (hex_no_slash _ _ Hh), (hex_no_slash _ _ Hl), IH. reflexivity.
Qed.
Lemma encodes_ne raw s : encodes raw s -> s <> "" -> raw <> "".
Proof. intros E N. destruct E; [exact N|discriminate|discriminate]. Qed.
Lemma strip_app p s : strip p (p ++ s) = Some s.
Proof. induction p as [|c p IH]; [reflexivity|]. cbn. rewrite Ascii.eqb_refl. exact IH. Qed.
Lemma strip_iff p s r : strip p s = Some r <-> s = p ++ r.
Proof.
  split; [|intros ->; apply strip_app]. revert s. induction p as [|c p IH]; intros s H; cbn in *; [congruence|].
  destruct s as [|d s]; [discriminate|]. destruct (Ascii.eqb_spec c d) as [->|]; [|discriminate]. rewrite (IH s H). reflexivity.
Qed.
Lemma any_slash s : any_char (Ascii.eqb slash) s = true <-> exists a b, s = a ++ "/" ++ b.
Proof.
  induction s as [|c s IH]; cbn [any_char]; [split; [discriminate|intros ([|? ?] & b & H); discriminate]|].
  rewrite orb_true_iff, IH. split.
  - intros [H|(a & b & ->)]; [apply Ascii.eqb_eq in H as <-; exists "", s; reflexivity|exists (String c a), b; reflexivity].
  - intros ([|d a] & b & H); cbn in H; injection H as -> ->; [left; reflexivity|right; exists a, b; reflexivity].
Qed.
Lemma segment_iff s : segment s <-> negb (String.eqb s "") && negb (any_char (Ascii.eqb slash) s) = true.
Proof.
  rewrite andb_true_iff, !negb_true_iff, String.eqb_neq, <- not_true_iff_false, any_slash. unfold segment. split.
  - intros (A & B). split; [exact A|]. intros (a & b & E). exact (B a b E).
  - intros (A & B). split; [exact A|]. intros a b E. apply B. exists a, b. exact E.
Qed.
Lemma capture_iff p s r : capture p s = Some r <-> s = p ++ r /\ segment r.
Proof.
  unfold capture. destruct (strip p s) as [t|] eqn:E.
  - apply strip_iff in E. destruct (negb (t =? "") && negb (any_char (Ascii.eqb slash) t)) eqn:F.
    + apply segment_iff in F. split; [intros H; injection H as <-; auto|]. intros (H & _). rewrite E in H. apply str_app_inj_l in H. congruence.
    + split; [discriminate|]. intros (H & G). rewrite E in H. apply str_app_inj_l in H. subst r. apply segment_iff in G. congruence.
  - split; [discriminate|]. intros (H & _). rewrite H, strip_app in E. discriminate.
Qed.
Lemma route_item k raw : segment raw -> route (item_path k raw) = TItem k raw.
Proof.
  intros S. assert (C : forall p, capture p (p ++ raw) = Some raw) by (intros p; apply capture_iff; auto).
  assert (I : item_route item_routes (item_path k raw) = Some (k, raw)).
  { destruct k; unfold item_routes, item_route, item_path, kind_name.
    - change (capture "/api/v1/registry/attribute/" ("/api/v1/registry/" ++ "attribute" ++ "/" ++ raw)) with (capture "/api/v1/registry/attribute/" ("/api/v1/registry/attribute/" ++ raw)). rewrite C. reflexivity.
    - change (capture "/api/v1/registry/attribute/" ("/api/v1/registry/" ++ "metric" ++ "/" ++ raw)) with (@None string).
      change (capture "/api/v1/registry/metric/" ("/api/v1/registry/" ++ "metric" ++ "/" ++ raw)) with (capture "/api/v1/registry/metric/" ("/api/v1/registry/metric/" ++ raw)). rewrite C. reflexivity.
    - change (capture "/api/v1/registry/attribute/" ("/api/v1/registry/" ++ "span" ++ "/" ++ raw)) with (@None string). change (capture "/api/v1/registry/metric/" ("/api/v1/registry/" ++ "span" ++ "/" ++ raw)) with (@None string).
      change (capture "/api/v1/registry/span/" ("/api/v1/registry/" ++ "span" ++ "/" ++ raw)) with (capture "/api/v1/registry/span/" ("/api/v1/registry/span/" ++ raw)). rewrite C. reflexivity.
    - change (capture "/api/v1/registry/attribute/" ("/api/v1/registry/" ++ "event" ++ "/" ++ raw)) with (@None string). change (capture "/api/v1/registry/metric/" ("/api/v1/registry/" ++ "event" ++ "/" ++ raw)) with (@None string).
      change (capture "/api/v1/registry/span/" ("/api/v1/registry/" ++ "event" ++ "/" ++ raw)) with (@None string).
      change (capture "/api/v1/registry/event/" ("/api/v1/registry/" ++ "event" ++ "/" ++ raw)) with (capture "/api/v1/registry/event/" ("/api/v1/registry/event/" ++ raw)). rewrite C. reflexivity.
    - change (capture "/api/v1/registry/attribute/" ("/api/v1/registry/" ++ "entity" ++ "/" ++ raw)) with (@None string). change (capture "/api/v1/registry/metric/" ("/api/v1/registry/" ++ "entity" ++ "/" ++ raw)) with (@None string).
      change (capture "/api/v1/registry/span/" ("/api/v1/registry/" ++ "entity" ++ "/" ++ raw)) with (@None string). change (capture "/api/v1/registry/event/" ("/api/v1/registry/" ++ "entity" ++ "/" ++ raw)) with (@None string).
      change (capture "/api/v1/registry/entity/" ("/api/v1/registry/" ++ "entity" ++ "/" ++ raw)) with (capture "/api/v1/registry/entity/" ("/api/v1/registry/entity/" ++ raw)). rewrite C. reflexivity. }
  unfold route. rewrite I. destruct k; reflexivity.
Qed.
Lemma route_schema raw : segment raw -> route ("/api/v1/schema/" ++ raw) = TSchema raw.
Proof.
  intros S. unfold route. replace (capture "/api/v1/schema/" ("/api/v1/schema/" ++ raw)) with (Some raw) by (symmetry; apply capture_iff; auto). reflexivity.
Qed.
Lemma item_route_iff path k raw : item_route item_routes path = Some (k, raw) -> path = item_path k raw /\ segment raw.
Proof.
  unfold item_routes. cbn [item_route].
  repeat match goal with |- (match ?x with _ => _ end = _ -> _) => let E := fresh "E" in destruct x eqn:E; [intros H; injection H as <- <-; apply capture_iff in E as (-> & ?); split; [reflexivity|assumption]|] end.
  discriminate.
Qed.
Lemma route_cases path :
  match route path with
  | THealth => path = "/health"
  | TStats => path = "/api/v1/registry/stats"
  | TSearch => path = "/api/v1/registry/search"
  | TFilter => path = "/api/v1/registry/filter"
  | TOpenApi => path = "/api/v1/openapi.json"
  | TSchema raw => path = "/api/v1/schema/" ++ raw /\ segment raw
  | TItem k raw => path = item_path k raw /\ segment raw
  | TFallback => True
  end.
Proof.
  unfold route.
  do 5 (match goal with |- context [if String.eqb path ?p then _ else _] => destruct (String.eqb_spec path p) as [E|_]; [exact E|] end).
  destruct (capture "/api/v1/schema/" path) as [raw|] eqn:E; [apply capture_iff, E|].
  destruct (item_route item_routes path) as [[k raw]|] eqn:F; [apply item_route_iff, F|exact I].
Qed.
Lemma route_api path : api_path path <-> route path <> TFallback.
Proof.
  split.
  - intros [p H|s H|k s H].
    + cbn in H. destruct H as [<-|[<-|[<-|[<-|[<-|[]]]]]]; discriminate.
    + rewrite route_schema by exact H. discriminate.
    + rewrite route_item by exact H. discriminate.
  - intros N. pose proof (route_cases path) as C. destruct (route path); try congruence; subst; try (apply ap_fixed; cbn; tauto).
    + destruct C as (-> & S). apply ap_schema, S.
    + destruct C as (-> & S). apply ap_item, S.
Qed.

(* ---------- query strings ---------- *)
Lemma filter_none k (q : list (string * string)) : filter (fun kv => String.eqb k (fst kv)) q = [] <-> forall v, ~ In (k, v) q.
Proof.
  induction q as [|[k' v'] q IH]; cbn [filter fst]; [split; [intros _ v []|reflexivity]|]. destruct (String.eqb_spec k k') as [<-|N].
  - split; [discriminate|]. intros H. destruct (H v'). left. reflexivity.
  - rewrite IH. split; intros H v; [intros [E|E]; [congruence|exact (H v E)]|intros E; apply (H v); right; exact E].
Qed.
Lemma filter_one k (q : list (string * string)) kv : filter (fun kv => String.eqb k (fst kv)) q = [kv] <-> fst kv = k /\ said k q (Some (snd kv)).
Proof.
  destruct kv as [k0 v]. cbn [fst snd said]. split.
  - induction q as [|[k' v'] q IH]; cbn [filter fst]; [discriminate|]. destruct (String.eqb_spec k k') as [<-|N].
    + intros H. injection H as <- <- H. split; [reflexivity|]. exists [], q. split; [reflexivity|]. split; [intros w []|apply filter_none, H].
    + intros H. destruct (IH H) as (-> & a & b & -> & Ha & Hb). split; [reflexivity|]. exists ((k', v') :: a), b. split; [reflexivity|]. split; [|exact Hb].
      intros w [E|E]; [congruence|exact (Ha w E)].
  - intros (-> & a & b & -> & Ha & Hb). rewrite filter_app. apply filter_none in Ha, Hb. rewrite Ha. cbn [filter fst app]. rewrite String.eqb_refl, Hb. reflexivity.
Qed.
Lemma field_iff k q o : field k q = Ok o <-> said k q o.
Proof.
  unfold field. destruct o as [v|].
  - split.
    + destruct (filter _ q) as [|kv [|? ?]] eqn:E; try discriminate. intros H. injection H as <-. apply filter_one in E. tauto.
    + intros H. rewrite (proj2 (filter_one k q (k, v)) (conj eq_refl H)). reflexivity.
  - cbn [said]. rewrite <- filter_none. destruct (filter _ q) as [|kv [|? ?]]; split; congruence.
Qed.
Lemma digit_iff c d : (Nat.leb 48 (nat_of_ascii c) && Nat.leb (nat_of_ascii c) 57 = true /\ d = nat_of_ascii c - 48) <-> String.get d "0123456789" = Some c.
Proof.
  split.
  - intros (H & ->). revert H. destruct c as [[] [] [] [] [] [] [] []]; vm_compute; congruence.
  - intros H. do 10 (destruct d as [|d]; [vm_compute in H; injection H as <-; split; reflexivity|]). destruct d; discriminate.
Qed.
Lemma digits_snoc s c acc : read_digits acc (s ++ String c "") =
  match read_digits acc s with
  | Some m => if Nat.leb 48 (nat_of_ascii c) && Nat.leb (nat_of_ascii c) 57 then Some (m * 10 + N.of_nat (nat_of_ascii c - 48))%N else None
  | None => None
  end.
Proof.
  revert acc. induction s as [|d s IH]; intros acc; cbn [String.append read_digits]; [reflexivity|].
  destruct (Nat.leb 48 (nat_of_ascii d) && Nat.leb (nat_of_ascii d) 57); [apply IH|reflexivity].
Qed.
Lemma digits_read s n : digits s n -> read_digits 0 s = Some (N.of_nat n) /\ s <> "".
Proof.
  induction 1 as [c d H|s n c d _ [IH _] H]; apply digit_iff in H as (H & ->).
  - cbn [read_digits]. rewrite H. split; [|discriminate]. f_equal.
  - rewrite digits_snoc, IH, H. split; [f_equal; lia|]. destruct s; discriminate.
Qed.
Lemma read_digits_iff s : forall k, String.length s <= k -> forall m, read_digits 0 s = Some m -> s <> "" -> digits s (N.to_nat m).
Proof.
  intros k. revert s. induction k as [|k IH]; intros s L m H N; [destruct s; cbn in L; [congruence|lia]|].
  destruct (str_last s) as [->|(a & c & ->)]; [congruence|]. rewrite digits_snoc in H. destruct (read_digits 0 a) as [m'|] eqn:E; [|discriminate].
  destruct (Nat.leb 48 (nat_of_ascii c) && Nat.leb (nat_of_ascii c) 57) eqn:D; [|discriminate]. injection H as <-.
  assert (G : String.get (nat_of_ascii c - 48) "0123456789" = Some c) by (apply digit_iff; auto).
  destruct a as [|x a].
  - cbn in E. injection E as <-. cbn [String.append]. replace (N.to_nat _) with (nat_of_ascii c - 48) by lia. apply dg_one, G.
  - replace (N.to_nat _) with (10 * N.to_nat m' + (nat_of_ascii c - 48)) by lia. apply dg_more; [|exact G].
    apply IH; [|exact E|discriminate]. rewrite str_length_app in L. cbn in *. lia.
Qed.
Lemma plus_not_digits t n : ~ digits (String "+" t) n.
Proof. intros H. apply digits_read in H as (H & _). discriminate. Qed.
Lemma usize_iff s n : read_usize s = Ok n <-> number s n.
Proof.
  unfold number. set (d := match s with String "+" r => r | _ => s end).
  assert (D : (digits s n \/ exists t, s = "+" ++ t /\ digits t n) <-> digits d n).
  { unfold d. destruct s as [|c s]; [split; [intros [H|(t & H & _)]; [exact H|discriminate]|auto]|].
    assert (K : c = "+"%char \/ c <> "+"%char) by (destruct (Ascii.eqb_spec c "+"); auto). destruct K as [->|K].
    - split; [intros [H|(t & H & G)]; [destruct (plus_not_digits _ _ H)|injection H as ->; exact G]|]. intros H. right. exists s. auto.
    - replace (match String c s with String "+" r => r | _ => String c s end) with (String c s) by (destruct c as [[] [] [] [] [] [] [] []]; try reflexivity; congruence).
      split; [|auto]. intros [H|(t & H & _)]; [exact H|injection H as -> _; congruence]. }
  rewrite D. unfold read_usize. fold d. clearbody d. clear D s. destruct (String.eqb_spec d "") as [->|N].
  - split; [discriminate|]. intros (H & _). apply digits_read in H. destruct H; congruence.
  - destruct (read_digits 0 d) as [m|] eqn:E.
    + destruct (N.ltb_spec m (2 ^ 64)) as [L|L].
      * split.
        -- intros H. injection H as <-. rewrite N2Nat.id. split; [|exact L]. eapply read_digits_iff; [apply Nat.le_refl|exact E|exact N].
        -- intros (H & _). apply digits_read in H as (H & _). rewrite E in H. injection H as ->. rewrite Nat2N.id. reflexivity.
      * split; [discriminate|]. intros (H & G). apply digits_read in H as (H & _). rewrite E in H. injection H as ->. exfalso. revert L. apply N.lt_nge, G.
    + split; [discriminate|]. intros (H & _). apply digits_read in H as (H & _). congruence.
Qed.
Lemma type_iff s o : read_type s = Ok o <-> type_name s o.
Proof.
  unfold read_type. split.
  - repeat match goal with |- ((if String.eqb ?a ?b then _ else _) = _ -> _) => destruct (String.eqb_spec a b) as [->|_]; [intros H; injection H as <-|] end; try discriminate.
    + apply tn_all.
    + apply (tn_kind KAttribute).
    + apply (tn_kind KMetric).
    + apply (tn_kind KSpan).
    + apply (tn_kind KEvent).
    + apply (tn_kind KEntity).
  - intros [|k]; [reflexivity|]. destruct k; reflexivity.
Qed.
Lemma stab_iff s x : read_stability s = Ok x <-> ManifestSpec.stability_name s x.
Proof.
  unfold read_stability. split; [|intros []; reflexivity].
  destruct (String.eqb_spec s "deprecated") as [->|_]; [intros H; injection H as <-; constructor|].
  destruct (String.eqb_spec s "stable") as [->|_]; [intros H; injection H as <-; constructor|].
  destruct (String.eqb_spec s "development") as [->|_]; [intros H; injection H as <-; constructor|].
  destruct (String.eqb_spec s "experimental") as [->|_]; [intros H; injection H as <-; constructor|]. cbn [orb].
  destruct (String.eqb_spec s "alpha") as [->|_]; [intros H; injection H as <-; constructor|].
  destruct (String.eqb_spec s "beta") as [->|_]; [intros H; injection H as <-; constructor|].
  destruct (String.eqb_spec s "release_candidate") as [->|_]; [intros H; injection H as <-; constructor|]. discriminate.
Qed.
Lemma bool_iff s b : read_bool s = Ok b <-> flag s b.
Proof.
  unfold read_bool, flag. destruct (String.eqb_spec s "true") as [->|N].
  - split; [intros H; injection H as <-; auto|]. intros [(_ & ->)|(H & _)]; [reflexivity|discriminate].
  - destruct (String.eqb_spec s "false") as [->|M].
    + split; [intros H; injection H as <-; auto|]. intros [(H & _)|(_ & ->)]; [discriminate|reflexivity].
    + split; [discriminate|]. intros [(H & _)|(H & _)]; congruence.
Qed.
Lemma default_iff {A} (R : string -> A -> Prop) (f : string -> res A) d o x : (forall s y, f s = Ok y <-> R s y) ->
  (with_default d f o = Ok x <-> reads R d o x).
Proof. intros H. destruct o as [s|]; cbn [with_default reads]; [apply H|]. split; congruence. Qed.
Lemma search_iff q p : read_search q = Ok p <-> asks q p.
Proof.
  unfold read_search, asks. split.
  - destruct (field "q" q) as [fq|] eqn:Eq; [|discriminate]. destruct (field "type" q) as [ft|] eqn:Et; [|discriminate].
    destruct (field "stability" q) as [fs|] eqn:Es; [|discriminate]. destruct (field "hide_deprecated" q) as [fh|] eqn:Eh; [|discriminate].
    destruct (field "limit" q) as [fl|] eqn:El; [|discriminate]. destruct (field "offset" q) as [fo|] eqn:Eo; [|discriminate].
    cbn [rbind]. destruct (with_default None read_type ft) as [t|] eqn:Dt; [|discriminate].
    cbn [rbind]. destruct (with_default None _ fs) as [s|] eqn:Ds; [|discriminate].
    cbn [rbind]. destruct (with_default false read_bool fh) as [h|] eqn:Dh; [|discriminate].
    cbn [rbind]. destruct (with_default 50 read_usize fl) as [l|] eqn:Dl; [|discriminate].
    cbn [rbind]. destruct (with_default 0 read_usize fo) as [o|] eqn:Do; [|discriminate]. intros H. injection H as <-.
    cbn [sp_q sp_type sp_stability sp_hide sp_limit sp_offset]. split; [apply field_iff, Eq|].
    split; [exists ft; split; [apply field_iff, Et|apply (default_iff type_name read_type); [apply type_iff|exact Dt]]|].
    split; [exists fs; split; [apply field_iff, Es|]|].
    { destruct fs as [s0|]; cbn in *; [|congruence]. destruct (read_stability s0) as [x|] eqn:R; [|discriminate]. injection Ds as <-. exists x. split; [reflexivity|apply stab_iff, R]. }
    split; [exists fh; split; [apply field_iff, Eh|apply (default_iff flag read_bool); [apply bool_iff|exact Dh]]|].
    split; [exists fl; split; [apply field_iff, El|apply (default_iff number read_usize); [apply usize_iff|exact Dl]]|].
    exists fo; split; [apply field_iff, Eo|apply (default_iff number read_usize); [apply usize_iff|exact Do]].
  - destruct p as [pq pt ps ph pl po]. cbn [sp_q sp_type sp_stability sp_hide sp_limit sp_offset].
    intros (Hq & (ft & Ft & Rt) & (fs & Fs & Rs) & (fh & Fh & Rh) & (fl & Fl & Rl) & (fo & Fo & Ro)).
    apply field_iff in Hq, Ft, Fs, Fh, Fl, Fo. rewrite Hq, Ft, Fs, Fh, Fl, Fo. cbn [rbind].
    apply (default_iff type_name read_type _ _ _ type_iff) in Rt. rewrite Rt. cbn [rbind].
    assert (Ds : with_default None (fun s => let* x := read_stability s in Ok (Some x)) fs = Ok ps).
    { destruct fs as [s0|]; cbn in *; [|congruence]. destruct Rs as (y & -> & Y). apply stab_iff in Y. rewrite Y. reflexivity. }
    rewrite Ds. cbn [rbind]. apply (default_iff flag read_bool _ _ _ bool_iff) in Rh. rewrite Rh. cbn [rbind].
    apply (default_iff number read_usize _ _ _ usize_iff) in Rl. rewrite Rl. cbn [rbind]. apply (default_iff number read_usize _ _ _ usize_iff) in Ro. rewrite Ro. reflexivity.
Qed.
Lemma lookup_iff r sep k key e : lookup (from_registry r sep) k key = Some e <-> holds r k key e.
Proof.
  destruct k; cbn [lookup holds section]; [apply PropSearch.C73_attribute|apply PropSearch.C73_signals..].
Qed.
Lemma lookup_none r sep k key : lookup (from_registry r sep) k key = None <-> ~ In key (map en_key (section r k)).
Proof. destruct (PropSearch.C73_absent r sep key) as (M & Sp & Ev & En & At). destruct k; cbn [lookup section]; assumption. Qed.
Lemma trim_slashes_id s : ~ slashed s -> trim_slashes s = s.
Proof.
  destruct s as [|c s]; [reflexivity|]. intros N. unfold trim_slashes. cbn [trim_start]. destruct (Ascii.eqb_spec slash c) as [<-|]; [|reflexivity].
  destruct N. exists s. reflexivity.
Qed.
Lemma trim_slashes_not s : ~ slashed (trim_slashes s).
Proof.
  unfold trim_slashes. induction s as [|c s IH]; cbn [trim_start]; [intros (r & H); discriminate|].
  destruct (Ascii.eqb_spec slash c) as [_|N]; [exact IH|]. intros (r & H). injection H as -> _. apply N. reflexivity.
Qed.

Section Server.
  Variables (utf8 : string -> bool) (lower : string -> string) (run_filter : string -> res json) (ui : list string).
  Local Notation answer_to := (answers utf8 lower run_filter ui).

  (* ---------- objects ---------- *)
  (* every object is served under its path, however the key is escaped there; else the answer is that there
     is none *)
  Theorem C101_item r sep stats k key raw query origin : utf8 key = true -> key <> "" -> ~ slashed key -> encodes raw key ->
    (forall e, holds r k key e -> answer_to r sep stats (get_of (item_path k raw) query origin) = reply 200 (BItem k e)) /\
    (~ In key (map en_key (section r k)) -> an_status (answer_to r sep stats (get_of (item_path k raw) query origin)) = 404) /\
    (In key (map en_key (section r k)) -> exists e, holds r k key e).
  Proof.
    intros U Ne Ns En. unfold answers, handle, get_of, request_of. cbn [rq_method rq_path rq_query].
    assert (Sg : segment raw). { apply segment_iff. rewrite (encodes_segment _ _ En), (proj2 (String.eqb_neq raw "") (encodes_ne _ _ En Ne)). reflexivity. }
    rewrite route_item by exact Sg. cbn [String.eqb Ascii.eqb Bool.eqb orb]. unfold get_target, get_item, path_arg. cbv zeta. rewrite (decode_encodes _ _ En), U.
    rewrite (trim_slashes_id _ Ns). cbn [st_search]. split; [|split].
    - intros e H. apply (lookup_iff r sep) in H. rewrite H. reflexivity.
    - intros H. apply (lookup_none r sep) in H. rewrite H. reflexivity.
    - intros H. destruct (lookup (from_registry r sep) k key) as [e|] eqn:L; [exists e; apply (lookup_iff r sep), L|]. apply lookup_none in L. destruct (L H).
  Qed.
  (* a path that stands for no text is refused *)
  Theorem C101_not_text r sep stats k key raw query origin : utf8 key = false -> key <> "" -> encodes raw key ->
    an_status (answer_to r sep stats (get_of (item_path k raw) query origin)) = 400 /\
    an_status (answer_to r sep stats (get_of ("/api/v1/schema/" ++ raw) query origin)) = 400.
  Proof.
    intros U Ne En. unfold answers, handle, get_of, request_of. cbn [rq_method rq_path rq_query].
    assert (Sg : segment raw). { apply segment_iff. rewrite (encodes_segment _ _ En), (proj2 (String.eqb_neq raw "") (encodes_ne _ _ En Ne)). reflexivity. }
    rewrite route_item, route_schema by exact Sg. cbn [String.eqb Ascii.eqb Bool.eqb orb]. unfold get_target, get_item, get_schema, path_arg. cbv zeta. rewrite (decode_encodes _ _ En), U. auto.
  Qed.
  Lemma holds_key r k key e : holds r k key e -> en_key e = key /\ In e (section r k).
  Proof.
    assert (L : forall P, SearchSpec.last_named P (section r k) key e -> en_key e = key /\ In e (section r k)).
    { intros P (E & _ & a & b & -> & _). split; [exact E|]. apply in_app_iff. right. left. reflexivity. }
    intros H. unfold holds in H. destruct k; try exact (L _ H). destruct H as [H|(_ & H)]; exact (L _ H).
  Qed.
  Lemma target_item r sep stats t rq k e :
    an_body (get_target utf8 lower run_filter ui {| st_search := from_registry r sep; st_stats := stats |} t rq) = BItem k e ->
    exists raw, t = TItem k raw /\ lookup (from_registry r sep) k (trim_slashes (percent_decode raw)) = Some e /\
      get_target utf8 lower run_filter ui {| st_search := from_registry r sep; st_stats := stats |} t rq = reply 200 (BItem k e).
  Proof.
    destruct t as [|raw| |k0 raw| | | |]; cbn [get_target].
    - discriminate.
    - unfold get_schema. destruct (path_arg utf8 raw) as [n|]; [|discriminate]. destruct (existsb _ _); discriminate.
    - discriminate.
    - unfold get_item, path_arg. cbv zeta. destruct (utf8 (percent_decode raw)); [|discriminate]. cbn [st_search].
      destruct (lookup _ k0 _) as [x|] eqn:L; [|destruct k0; discriminate]. intros H. injection H as <- <-. exists raw. auto.
    - unfold get_search. destruct (read_search _) as [p|]; [|discriminate]. destruct (search_registry _ _ _ _ _ _ _ _) as [[? ?] ?]. discriminate.
    - unfold get_filter. destruct (field _ _) as [f|]; [|discriminate]. destruct (run_filter _); discriminate.
    - discriminate.
    - unfold serve_ui. destruct (existsb _ ui); [discriminate|]. destruct (existsb _ ui); discriminate.
  Qed.
  (* an object in an answer is the one of its kind and key, and was asked for with GET under a path for its
     kind *)
  Theorem C101_only r sep stats rq k e : an_body (answer_to r sep stats rq) = BItem k e ->
    rq_method rq = "GET" /\ (exists raw, rq_path rq = item_path k raw) /\ an_status (answer_to r sep stats rq) = 200 /\
    holds r k (en_key e) e /\ ~ slashed (en_key e).
  Proof.
    unfold answers, handle. cbv zeta. intros H.
    destruct (String.eqb_spec (rq_method rq) "HEAD") as [Eh|Nh]; [discriminate|].
    pose proof (route_cases (rq_path rq)) as C. destruct (route (rq_path rq)) eqn:Rt; rewrite ?orb_false_r in *;
      try (destruct (String.eqb_spec (rq_method rq) "GET") as [G|G]; [|discriminate]);
      destruct (target_item _ _ _ _ _ _ _ H) as (raw0 & T & L & ->); try discriminate.
    injection T as -> ->. destruct C as (C & _). pose proof L as L'. apply lookup_iff, holds_key in L' as (Ek & _). apply lookup_iff in L. rewrite <- Ek in L.
    split; [exact G|]. split; [eauto|]. split; [reflexivity|]. split; [exact L|]. rewrite Ek. apply trim_slashes_not.
  Qed.

  (* ---------- the other paths ---------- *)
  (* a HEAD request gets the status of the GET request, and no body; other methods none of the API's paths *)
  Theorem C101_methods r sep stats rq :
    (rq_method rq = "HEAD" ->
       answer_to r sep stats rq = reply (an_status (answer_to r sep stats (get_of (rq_path rq) (rq_query rq) (rq_origin rq)))) BEmpty) /\
    (rq_method rq <> "GET" -> rq_method rq <> "HEAD" -> (an_status (answer_to r sep stats rq) = 405 <-> api_path (rq_path rq))).
  Proof.
    unfold answers. split.
    - intros H. unfold handle, get_of, request_of. cbv zeta. cbn [rq_method rq_path rq_query]. rewrite H. cbn [String.eqb Ascii.eqb Bool.eqb orb]. unfold without_body.
      destruct (route (rq_path rq)); reflexivity.
    - intros G H. rewrite route_api. apply String.eqb_neq in G, H. unfold handle. cbv zeta. rewrite G, H. cbn [orb].
      destruct (route (rq_path rq)); cbn [get_target an_status reply]; try (split; [discriminate|reflexivity]).
      unfold serve_ui. destruct (existsb _ ui); [split; [discriminate|congruence]|]. destruct (existsb _ ui); (split; [discriminate|congruence]).
  Qed.
  (* whatever is not a path of the API is a file of the user interface, and else its start page *)
  Theorem C101_ui r sep stats rq : ~ api_path (rq_path rq) -> rq_method rq <> "HEAD" ->
    exists p n, rq_path rq = SearchSpec.times n "/" ++ p /\ ~ slashed p /\
    answer_to r sep stats rq = (if in_dec string_dec p ui then reply 200 (BFile p) else if in_dec string_dec "index.html" ui then reply 200 BIndex else reply 404 (BText "UI not available")).
  Proof.
    intros N H. exists (trim_slashes (rq_path rq)).
    assert (Tr : exists n, rq_path rq = SearchSpec.times n "/" ++ trim_slashes (rq_path rq)).
    { unfold trim_slashes. generalize (rq_path rq) as s. induction s as [|c s (n & IH)]; [exists 0; reflexivity|]. cbn [trim_start].
      destruct (Ascii.eqb_spec slash c) as [<-|]; [|exists 0; reflexivity]. exists (S n). cbn. rewrite <- IH. reflexivity. }
    destruct Tr as (n & Tr). exists n. split; [exact Tr|]. split; [apply trim_slashes_not|].
    unfold answers, handle. cbv zeta. apply String.eqb_neq in H. rewrite H. destruct (route (rq_path rq)) eqn:E;
      try (exfalso; apply N, route_api; rewrite E; discriminate). cbn [get_target]. unfold serve_ui. cbv zeta.
    assert (X : forall s l, existsb (String.eqb s) l = if in_dec string_dec s l then true else false).
    { intros s l. destruct (in_dec string_dec s l) as [I|I].
      - apply existsb_exists. exists s. split; [exact I|apply String.eqb_refl].
      - apply not_true_iff_false. intros J. apply existsb_exists in J as (x & J & K). apply String.eqb_eq in K. subst. auto. }
    rewrite !X. destruct (in_dec string_dec (trim_slashes (rq_path rq)) ui); [reflexivity|]. destruct (in_dec string_dec "index.html" ui); reflexivity.
  Qed.
  (* the schemas, the statistics and the health of the server *)
  Theorem C101_fixed r sep stats query origin :
    answer_to r sep stats (get_of "/health" query origin) = reply 200 BEmpty /\
    answer_to r sep stats (get_of "/api/v1/registry/stats" query origin) = reply 200 (BStats stats) /\
    answer_to r sep stats (get_of "/api/v1/openapi.json" query origin) = reply 200 BOpenApi /\
    forall name raw, utf8 name = true -> name <> "" -> ~ slashed name -> encodes raw name ->
      (In name ["MaterializedRegistryV2"; "SemconvDefinitionV2"; "LiveCheckSample"] ->
         answer_to r sep stats (get_of ("/api/v1/schema/" ++ raw) query origin) = reply 200 (BSchema name)) /\
      (~ In name ["MaterializedRegistryV2"; "SemconvDefinitionV2"; "LiveCheckSample"] ->
         an_status (answer_to r sep stats (get_of ("/api/v1/schema/" ++ raw) query origin)) = 404).
  Proof.
    split; [reflexivity|]. split; [reflexivity|]. split; [reflexivity|]. intros name raw U Ne Ns En.
    unfold answers, handle, get_of, request_of. cbn [rq_method rq_path rq_query].
    assert (Sg : segment raw). { apply segment_iff. rewrite (encodes_segment _ _ En), (proj2 (String.eqb_neq raw "") (encodes_ne _ _ En Ne)). reflexivity. }
    rewrite route_schema by exact Sg. cbn [String.eqb Ascii.eqb Bool.eqb orb]. unfold get_target, get_schema, path_arg. cbv zeta. rewrite (decode_encodes _ _ En), U.
    rewrite (trim_slashes_id _ Ns). split.
    - intros H. replace (existsb (String.eqb name) schema_names) with true; [reflexivity|]. symmetry. apply existsb_exists. exists name. split; [exact H|apply String.eqb_refl].
    - intros H. replace (existsb (String.eqb name) schema_names) with false; [reflexivity|]. symmetry. apply not_true_iff_false. intros J.
      apply existsb_exists in J as (x & J & K). apply String.eqb_eq in K. subst x. exact (H J).
  Qed.

  (* ---------- searching and filtering ---------- *)
  (* a search answers with the page that was asked for of all that matches *)
  Theorem C101_search r sep stats query origin p full : asks query p ->
    SearchSpec.answer lower r sep (sp_q p) (sp_type p) (sp_stability p) (sp_hide p) full ->
    let shown := firstn (Nat.min (sp_limit p) 1000) (skipn (sp_offset p) full) in
    answer_to r sep stats (get_of "/api/v1/registry/search" query origin) =
      reply 200 (BSearch (sp_q p) (List.length full) (List.length shown) (sp_offset p) shown).
  Proof.
    intros A F. cbv zeta. apply search_iff in A. unfold answers, handle, get_of, request_of. cbn [rq_method rq_path rq_query].
    change (route "/api/v1/registry/search") with TSearch. cbn [String.eqb Ascii.eqb Bool.eqb orb]. cbn [get_target rq_query]. unfold get_search. rewrite A. cbn [st_search].
    rewrite (proj1 (PropSearch.C42_served _ _ _ _ _ _ _ _ F _ _)). reflexivity.
  Qed.
  (* and with an error just when the query string makes no sense *)
  Theorem C101_search_bad r sep stats query origin :
    an_status (answer_to r sep stats (get_of "/api/v1/registry/search" query origin)) = 400 <-> forall p, ~ asks query p.
  Proof.
    unfold answers, handle, get_of, request_of. cbn [rq_method rq_path rq_query].
    change (route "/api/v1/registry/search") with TSearch. cbn [String.eqb Ascii.eqb Bool.eqb orb]. cbn [get_target rq_query]. unfold get_search.
    destruct (read_search query) as [p|e] eqn:E.
    - destruct (search_registry _ _ _ _ _ _ _ _) as [[? ?] ?]. split; [discriminate|]. intros H. destruct (H p). apply search_iff, E.
    - split; [|reflexivity]. intros _ p A. apply search_iff in A. congruence.
  Qed.
  (* what a query string asks for is determined *)
  Theorem C101_asks query p p' : asks query p -> asks query p' -> p = p'.
  Proof. intros A B. apply search_iff in A, B. congruence. Qed.
  (* a filter answers with what jq gives, for the whole registry without one; else the request is at fault *)
  Theorem C101_filter r sep stats query origin f : said "filter" query f ->
    let filter := match f with Some x => x | None => "." end in
    (forall v, run_filter filter = Ok v -> answer_to r sep stats (get_of "/api/v1/registry/filter" query origin) = reply 200 (BJson v)) /\
    (forall e, run_filter filter = Err e -> answer_to r sep stats (get_of "/api/v1/registry/filter" query origin) = reply 400 (BError e [])).
  Proof.
    intros A. cbv zeta. apply field_iff in A. unfold answers, handle, get_of, request_of. cbn [rq_method rq_path rq_query].
    change (route "/api/v1/registry/filter") with TFilter. cbn [String.eqb Ascii.eqb Bool.eqb orb]. cbn [get_target rq_query]. unfold get_filter. rewrite A.
    destruct f as [x|]; cbn [opt_get]; split; intros y ->; reflexivity.
  Qed.
End Server.

(* ---------- CORS ---------- *)
Lemma any_comma s : any_char (fun d => Ascii.eqb d ",") s = true <-> exists a b, s = a ++ "," ++ b.
Proof.
  induction s as [|c s IH]; cbn [any_char]; [split; [discriminate|intros ([|? ?] & b & H); discriminate]|].
  rewrite orb_true_iff, IH. split.
  - intros [H|(a & b & ->)]; [apply Ascii.eqb_eq in H as ->; exists "", s; reflexivity|exists (String c a), b; reflexivity].
  - intros ([|d a] & b & H); cbn in H; injection H as -> ->; [left; reflexivity|right; exists a, b; reflexivity].
Qed.
Lemma split_unique c l : l <> [] -> (forall p, In p l -> any_char (fun d => Ascii.eqb d c) p = false) -> split_char c (join (String c "") l) = l.
Proof.
  assert (One : forall p, any_char (fun d => Ascii.eqb d c) p = false -> split_char c p = [p]).
  { induction p as [|d p IH]; intros H; [reflexivity|]. cbn in *. apply orb_false_iff in H as [-> H]. rewrite (IH H). reflexivity. }
  assert (More : forall p s, any_char (fun d => Ascii.eqb d c) p = false -> split_char c (p ++ String c s) = p :: split_char c s).
  { induction p as [|d p IH]; intros s H; [cbn; rewrite Ascii.eqb_refl; reflexivity|]. cbn in *. apply orb_false_iff in H as [-> H]. rewrite (IH s H). reflexivity. }
  induction l as [|p l IH]; [congruence|]. intros _ H. destruct l as [|p' l].
  - apply One, H. left. reflexivity.
  - change (join (String c "") (p :: p' :: l)) with (p ++ String c (join (String c "") (p' :: l))). rewrite More by (apply H; left; reflexivity).
    rewrite IH; [reflexivity|discriminate|]. intros q Hq. apply H. right. exact Hq.
Qed.
Lemma allows_iff o x : In x (map trim (split_char "," o)) <-> allows o x.
Proof.
  split.
  - intros H. apply in_map_iff in H as (m & <- & I). exists (split_char "," o), m. split; [apply split_char_ne|]. split; [symmetry; apply (split_char_join "," o)|].
    split; [|split; [exact I|apply CodeProofs.trim_ws_trimmed]]. intros p Hp a b E. apply split_char_pieces in Hp. assert (X : any_char (fun d => Ascii.eqb d ",") p = true) by (apply any_comma; eauto). congruence.
  - intros (l & m & N & -> & P & I & T). rewrite (split_unique "," l N).
    + apply in_map_iff. exists m. split; [|exact I]. eapply CodeProofs.trimmed_det; [|exact T]. apply CodeProofs.trim_ws_trimmed.
    + intros p Hp. apply not_true_iff_false. rewrite any_comma. intros (a & b & E). exact (P p Hp a b E).
Qed.
Lemma header_iff s : header_value s = true <-> forall a c b, s = a ++ String c b -> visible c.
Proof.
  unfold header_value. induction s as [|d s IH]; cbn [all_chars].
  - split; [intros _ [|? ?] c b H; discriminate|reflexivity].
  - rewrite andb_true_iff, IH. unfold header_char. cbv zeta. rewrite orb_true_iff, andb_true_iff, Nat.leb_le, Nat.ltb_lt, Nat.eqb_eq. split.
    + intros (A & B) [|x a] c b H; cbn in H; injection H as -> H; [unfold visible; lia|exact (B a c b H)].
    + intros H. split; [specialize (H "" d s eq_refl); unfold visible in H; lia|]. intros a c b E. apply (H (String d a) c b). rewrite E. reflexivity.
Qed.
(* the server does not start just when one of the origins is no header value, or a star among others *)
Theorem C101_cors_start o : configure_cors (Some o) = StartPanic <->
  o <> "*" /\ exists x, allows o x /\ (x = "*" \/ exists a c b, x = a ++ String c b /\ ~ visible c).
Proof.
  unfold configure_cors. destruct (String.eqb_spec o "*") as [->|N]; [split; [discriminate|intros (X & _); congruence]|]. cbv zeta.
  set (l := map trim (split_char "," o)). assert (L : forall x, In x l <-> allows o x) by (intros; apply allows_iff). clearbody l.
  destruct (forallb header_value l) eqn:F; cbn [negb].
  - destruct (existsb (String.eqb "*") l) eqn:S.
    + split; [|reflexivity]. intros _. split; [exact N|]. apply existsb_exists in S as (x & I & E). apply String.eqb_eq in E. subst x. exists "*". split; [apply L, I|auto].
    + split; [discriminate|]. intros (_ & x & A & [->|(a & c & b & E & V)]); exfalso.
      * apply L in A. assert (X : existsb (String.eqb "*") l = true) by (apply existsb_exists; exists "*"; split; [exact A|reflexivity]). congruence.
      * apply L in A. rewrite forallb_forall in F. apply F in A. rewrite header_iff in A. exact (V (A a c b E)).
  - split; [|reflexivity]. intros _. split; [exact N|].
    assert (B : exists x, In x l /\ header_value x = false).
    { clear L. induction l as [|y l IH]; [discriminate|]. cbn in F. destruct (header_value y) eqn:Y; [|exists y; split; [left; reflexivity|exact Y]].
      destruct (IH F) as (x & I & H). exists x. split; [right; exact I|exact H]. }
    destruct B as (x & I & H). exists x. split; [apply L, I|]. right. clear -H. unfold header_value in H. induction x as [|d x IH]; [discriminate|]. cbn in H.
    destruct (header_char d) eqn:D.
    + destruct (IH H) as (a & c & b & -> & V). exists (String d a), c, b. auto.
    + exists "", d, x. split; [reflexivity|]. unfold header_char in D. cbv zeta in D. apply orb_false_iff in D as (D1 & D2). apply Nat.eqb_neq in D2.
      apply andb_false_iff in D1. rewrite Nat.leb_gt, Nat.ltb_ge in D1. unfold visible. lia.
Qed.
(* without origins no answer allows another site to read it; with a star each does; with a list the answer names
   the origin of the request just when it is on the list.  Only OPTIONS requests are answered otherwise than
   without origins. *)
Theorem C101_cors utf8 lower run_filter ui origins c st rq : configure_cors origins = Started c ->
  (origins = None -> snd (serve utf8 lower run_filter ui c st rq) = None) /\
  (origins = Some "*" -> snd (serve utf8 lower run_filter ui c st rq) = Some "*") /\
  (forall o x, origins = Some o -> o <> "*" -> (snd (serve utf8 lower run_filter ui c st rq) = Some x <-> rq_origin rq = Some x /\ allows o x)) /\
  (origins = None \/ rq_method rq <> "OPTIONS" -> fst (serve utf8 lower run_filter ui c st rq) = handle utf8 lower run_filter ui st rq) /\
  (origins <> None -> rq_method rq = "OPTIONS" -> fst (serve utf8 lower run_filter ui c st rq) = reply 200 BEmpty).
Proof.
  intros H. split; [intros ->; injection H as <-; reflexivity|]. split; [intros ->; injection H as <-; reflexivity|]. split; [|split].
  - intros o x -> N. unfold configure_cors in H. destruct (String.eqb_spec o "*") as [|_]; [congruence|]. cbv zeta in H.
    destruct (negb (forallb header_value _)); [discriminate|]. destruct (existsb (String.eqb "*") _); [discriminate|]. injection H as <-.
    cbn [serve snd allow_origin]. rewrite <- allows_iff. destruct (rq_origin rq) as [y|]; [|split; [discriminate|intros (X & _); discriminate]].
    destruct (existsb (String.eqb y) _) eqn:E.
    + apply existsb_exists in E as (z & I & Z). apply String.eqb_eq in Z. subst z. split; [intros X; injection X as <-; auto|]. intros (X & _). congruence.
    + split; [discriminate|]. intros (X & I). injection X as ->. assert (Y : existsb (String.eqb x) (map trim (split_char "," o)) = true) by (apply existsb_exists; exists x; split; [exact I|apply String.eqb_refl]). congruence.
  - intros [->|N]; [injection H as <-; reflexivity|]. unfold serve. cbn [fst]. apply String.eqb_neq in N. rewrite N. destruct c; reflexivity.
  - intros N M. unfold serve. cbn [fst]. rewrite M. destruct c; [|reflexivity|reflexivity]. destruct origins as [o|]; [|congruence]. unfold configure_cors in H.
    destruct (o =? "*"); [discriminate|]. cbv zeta in H. destruct (negb (forallb header_value _)); [discriminate|]. destruct (existsb (String.eqb "*") _); discriminate.
Qed.

(* ---------- reaching objects ---------- *)
Lemma hex_get n : n < 16 -> exists h, String.get n "0123456789abcdef" = Some h.
Proof. intros L. do 16 (destruct n as [|n]; [eexists; reflexivity|]). lia. Qed.
Lemma encode_any s : exists raw, encodes raw s /\ clean raw.
Proof.
  induction s as [|c s (raw & En & Cl)]; [exists ""; split; constructor|].
  assert (B : nat_of_ascii c < 256) by apply nat_ascii_bounded.
  destruct (hex_get (nat_of_ascii c / 16)) as (h & Hh); [apply Nat.div_lt_upper_bound; lia|].
  destruct (hex_get (nat_of_ascii c mod 16)) as (l & Hl); [apply Nat.mod_upper_bound; lia|].
  exists (String "%" (String h (String l raw))). split.
  - eapply ec_escape; [left; exact Hh|left; exact Hl|apply Nat.div_mod; lia|exact En].
  - eapply cl_escape; [left; exact Hh|left; exact Hl|exact Cl].
Qed.
(* every object whose key is not empty and does not begin with a slash can be fetched, unless another one of
   its kind and key takes its place *)
Theorem C101_reachable utf8 lower run_filter ui r sep stats k key e : utf8 key = true -> key <> "" -> ~ slashed key -> holds r k key e ->
  exists raw, clean raw /\ forall query origin,
    answers utf8 lower run_filter ui r sep stats (get_of (item_path k raw) query origin) = reply 200 (BItem k e).
Proof.
  intros U N S H. destruct (encode_any key) as (raw & En & Cl). exists raw. split; [exact Cl|]. intros query origin.
  exact (proj1 (C101_item utf8 lower run_filter ui r sep stats k key raw query origin U N S En) e H).
Qed.
(* an object whose key begins with a slash cannot be fetched *)
Theorem C101_slash_refuted : exists r k e, holds r k (en_key e) e /\ en_key e <> "" /\
  forall utf8 lower run_filter ui sep stats rq,
    an_body (answers utf8 lower run_filter ui r sep stats rq) <> BItem k e.
Proof.
  exists sample_registry, KEvent, (sample_signal "/x"). split; [|split; [discriminate|]].
  - split; [reflexivity|]. split; [exact I|]. exists [], []. split; [reflexivity|]. intros x [].
  - intros utf8 lower run_filter ui sep stats rq H. apply (C101_only utf8 lower run_filter ui sample_registry sep stats) in H as (_ & _ & _ & _ & N). apply N. exists "x". reflexivity.
Qed.
(* a path below /api/ that the API does not have is answered with the start page, and success *)
Theorem C101_unknown_refuted utf8 lower run_filter r sep stats query origin : exists path,
  ~ api_path ("/api/v1/" ++ path) /\ answers utf8 lower run_filter ["index.html"] r sep stats (get_of ("/api/v1/" ++ path) query origin) = reply 200 BIndex.
Proof.
  exists "registry/metrics/http.duration". split; [|reflexivity]. rewrite route_api. intros H. apply H. reflexivity.
Qed.
(* a star with white space, or next to other origins, ends the server *)
Theorem C101_star_refuted : configure_cors (Some "*") = Started CorsAny /\ configure_cors (Some " *") = StartPanic /\
  configure_cors (Some "https://a.example,*") = StartPanic.
Proof. repeat split. Qed.
Print Assumptions C101_item.
Print Assumptions C101_not_text.
Print Assumptions C101_only.
Print Assumptions C101_methods.
Print Assumptions C101_ui.
Print Assumptions C101_fixed.
Print Assumptions C101_search.
Print Assumptions C101_search_bad.
Print Assumptions C101_asks.
Print Assumptions C101_filter.
Print Assumptions C101_cors_start.
Print Assumptions C101_cors.
Print Assumptions C101_reachable.
Print Assumptions C101_slash_refuted.
Print Assumptions C101_unknown_refuted.
Print Assumptions C101_star_refuted.

Definition sample_serve (method path : string) (query : list (string * string)) : ServeModel.answer * option string :=
  serve ascii_text (fun s => s) (fun f => if String.eqb f "." then Ok JNull else Err "no") ["index.html"; "a.js"] (CorsList ["https://a.example"])
    (state_of sample_registry) (request_of method path query (Some "https://a.example")).
Example C101_case_item : encodes "a%20b%2fc" "a b/c" /\ ~ slashed "a b/c" /\
  fst (sample_serve "GET" "/api/v1/registry/metric/a%20b%2fc" []) = reply 200 (BItem KMetric (sample_signal "a b/c")) /\
  fst (sample_serve "GET" "/api/v1/registry/metric/nope" []) = reply 404 (BError "Metric not found" [("name", "nope")]) /\
  fst (sample_serve "HEAD" "/api/v1/registry/metric/nope" []) = reply 404 BEmpty /\
  fst (sample_serve "POST" "/api/v1/registry/metric/nope" []) = reply 405 BEmpty.
Proof.
  split; [|split; [intros (x & H); discriminate|repeat split]]. apply ec_plain; [discriminate|discriminate|].
  apply (ec_escape "2" "0" 2 0 " "); [left; reflexivity|left; reflexivity|reflexivity|]. apply ec_plain; [discriminate|discriminate|].
  apply (ec_escape "2" "f" 2 15 "/"); [left; reflexivity|left; reflexivity|reflexivity|]. apply ec_plain; [discriminate|discriminate|]. apply ec_nil.
Qed.
Example C101_case_search :
  asks [("limit", "+7"); ("x", "y"); ("type", "event"); ("stability", "experimental")]
    {| sp_q := None; sp_type := Some KEvent; sp_stability := Some SDevelopment; sp_hide := false; sp_limit := 7; sp_offset := 0 |} /\
  fst (sample_serve "GET" "/api/v1/registry/search" [("q", "http"); ("limit", "1")]) =
    reply 200 (BSearch (Some "http") 2 1 0 [(80, (KAttribute, sample_signal "http.method"))]) /\
  an_status (fst (sample_serve "GET" "/api/v1/registry/search" [("limit", "-1")])) = 400 /\
  an_status (fst (sample_serve "GET" "/api/v1/registry/search" [("limit", "1"); ("limit", "1")])) = 400 /\
  an_status (fst (sample_serve "GET" "/api/v1/registry/filter" [("filter", "x")])) = 400 /\
  fst (sample_serve "GET" "/api/v1/registry/filter" []) = reply 200 (BJson JNull).
Proof. split; [apply search_iff; reflexivity|repeat split]. Qed.
Example C101_case_cors : configure_cors (Some "https://a.example, https://b.example") = Started (CorsList ["https://a.example"; "https://b.example"]) /\
  snd (sample_serve "GET" "/x" []) = Some "https://a.example" /\ fst (sample_serve "OPTIONS" "/health" []) = reply 200 BEmpty /\
  fst (sample_serve "GET" "//a.js" []) = reply 200 (BFile "a.js").
Proof. repeat split. Qed.
