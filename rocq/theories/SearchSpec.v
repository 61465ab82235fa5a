(* Vocabulary for C42, C43, C44, C73: searching and browsing a registry. *)
From Coq Require Import String Ascii Bool Arith List Permutation Sorted.
Import ListNotations.
From Verif Require Import Base Json SemTypes CodeSpec SearchModel.
Local Open Scope string_scope.

(* ---------- what is found ---------- *)
(* the item passes the filters *)
Definition wanted (kind : option skind) (stab : option stability) (hide_deprecated : bool) (i : item) : Prop :=
  (forall k, kind = Some k -> fst i = k) /\ (forall s, stab = Some s -> en_stability (snd i) = s) /\
  (hide_deprecated = true -> en_deprecated (snd i) = false).
(* the text occurs in the other one *)
Definition says (t s : string) : Prop := exists a b, s = a ++ t ++ b.
Definition char_of (c : ascii) (s : string) : Prop := exists a b, s = a ++ String c b.
(* a separator of queries *)
Definition breaks (sep : string) (c : ascii) : Prop := char_of c sep \/ c = Ascii.ascii_of_nat 95 \/ white c.
(* [t] is one of the terms of the query: a longest part of it without separators *)
Definition term (sep q t : string) : Prop :=
  t <> "" /\ (forall c, char_of c t -> ~ breaks sep c) /\
  exists a b, q = a ++ t ++ b /\ (a = "" \/ exists a' c, a = a' ++ String c "" /\ breaks sep c) /\
              (b = "" \/ exists c b', b = String c b' /\ breaks sep c).
(* the query has terms, and the text says every one *)
Definition says_terms (sep q s : string) : Prop := (exists t, term sep q t) /\ forall t, term sep q t -> says t s.
(* how well an item with this id, brief and note matches the query, not counting deprecation *)
Inductive rating (sep q id brief note : string) : nat -> Prop :=
| ra_exact : id = q -> rating sep q id brief note 100
| ra_prefix : id <> q -> (exists r, id = q ++ r) -> rating sep q id brief note 80
| ra_inside : (forall r, id <> q ++ r) -> says q id -> rating sep q id brief note 70
| ra_terms : ~ says q id -> says_terms sep q id -> rating sep q id brief note 60
| ra_brief : ~ says q id -> ~ says_terms sep q id -> says q brief -> rating sep q id brief note 40
| ra_note : ~ says q id -> ~ says_terms sep q id -> ~ says q brief -> says q note -> rating sep q id brief note 20
| ra_brief_terms : ~ says q id -> ~ says_terms sep q id -> ~ says q brief -> ~ says q note -> says_terms sep q brief ->
    rating sep q id brief note 35
| ra_note_terms : ~ says q id -> ~ says_terms sep q id -> ~ says q brief -> ~ says q note -> ~ says_terms sep q brief ->
    says_terms sep q note -> rating sep q id brief note 15
| ra_none : ~ says q id -> ~ says_terms sep q id -> ~ says q brief -> ~ says q note -> ~ says_terms sep q brief ->
    ~ says_terms sep q note -> rating sep q id brief note 0.
(* deprecated items keep a tenth, and at least one point *)
Definition demoted (deprecated : bool) (n m : nat) : Prop :=
  (deprecated = false /\ m = n) \/ (deprecated = true /\ n = 0 /\ m = 0) \/
  (deprecated = true /\ 0 < n /\ m = Nat.max 1 (n / 10)).
(* the score of an item: 0 for all without a query, else the rating with demotion; what rates 0 is no
   match *)
Definition scores (lower : string -> string) (sep : string) (query : option string) (i : item) (m : nat) : Prop :=
  match query with
  | None | Some "" => m = 0
  | Some q => 0 < m /\ exists n, rating sep (lower q) (lower (en_key (snd i))) (lower (en_brief (snd i))) (lower (en_note (snd i))) n /\
                                 demoted (en_deprecated (snd i)) n m
  end.
(* the members of a list that have a value, with it, in order *)
Inductive picked {A} (P : A -> nat -> Prop) : list A -> list (nat * A) -> Prop :=
| pk_nil : picked P [] []
| pk_keep i n l m : P i n -> picked P l m -> picked P (i :: l) ((n, i) :: m)
| pk_drop i l m : (forall n, ~ P i n) -> picked P l m -> picked P (i :: l) m.
(* best first; in the order of the list among equals *)
Definition ranked {A} (l r : list (nat * A)) : Prop :=
  Permutation l r /\ StronglySorted (fun x y => fst y <= fst x) r /\
  forall n, filter (fun x => Nat.eqb (fst x) n) r = filter (fun x => Nat.eqb (fst x) n) l.
(* everything that can be found, in the order of the registry *)
Definition objects (r : sregistry) : list item :=
  concat [map (pair KAttribute) (sr_attributes r); map (pair KMetric) (sr_metrics r); map (pair KSpan) (sr_spans r);
          map (pair KEvent) (sr_events r); map (pair KEntity) (sr_entities r)].
(* all that a search finds, in the order it is to be shown *)
Definition answer (lower : string -> string) (r : sregistry) (sep : string) (query : option string) (kind : option skind)
  (stab : option stability) (hide_deprecated : bool) (full : list (nat * item)) : Prop :=
  exists matches, picked (fun i n => wanted kind stab hide_deprecated i /\ scores lower sep query i n) (objects r) matches /\
                  ranked matches full.
(* the same object, marked as deprecated *)
Definition deprecate (e : entry) : entry :=
  {| en_key := en_key e; en_brief := en_brief e; en_note := en_note e; en_stability := en_stability e; en_deprecated := true;
     en_template := en_template e; en_rest := en_rest e |}.
(* reading page after page, each from where the last one ended, until a page is empty *)
Inductive walk {A} (get : nat -> list A) : nat -> list (list A) -> Prop :=
| wk_end o : get o = [] -> walk get o []
| wk_more o ps : get o <> [] -> walk get (o + length (get o)) ps -> walk get o (get o :: ps).

(* ---------- namespaces ---------- *)
(* the key lies below the namespace, as [r] *)
Definition remains (prefix sep key r : string) : Prop :=
  (prefix = "" /\ key = r) \/ (prefix <> "" /\ key = prefix ++ sep ++ r).
(* [seg] is the first segment of [r], and there are more *)
Definition first_segment (sep r seg : string) : Prop :=
  exists rest, r = seg ++ sep ++ rest /\ forall a b, r = a ++ sep ++ b -> String.length seg <= String.length a.
Inductive segments (sep : string) : string -> nat -> Prop :=
| sg_one r : ~ says sep r -> segments sep r 1
| sg_more seg rest n : (forall a b, seg ++ sep ++ rest = a ++ sep ++ b -> String.length seg <= String.length a) ->
    segments sep rest n -> segments sep (seg ++ sep ++ rest) (S n).
Fixpoint times (n : nat) (s : string) : string := match n with 0 => "" | S n => s ++ times n s end.
(* the prefix asked for, without the separators at its end *)
Definition trimmed (sep given p : string) : Prop := (exists n, given = p ++ times n sep) /\ forall a, p <> a ++ sep.
(* the members of a list that satisfy [P], in order *)
Inductive chosen {A} (P : A -> Prop) : list A -> list A -> Prop :=
| ch_nil : chosen P [] []
| ch_keep x l m : P x -> chosen P l m -> chosen P (x :: l) (x :: m)
| ch_drop x l m : ~ P x -> chosen P l m -> chosen P (x :: l) m.
(* the name of a namespace below another *)
Definition named (prefix sep seg ns : string) : Prop := (prefix = "" /\ ns = seg) \/ (prefix <> "" /\ ns = prefix ++ sep ++ seg).
(* what can be reached from a namespace by following the namespaces that are listed *)
Inductive reached (browse : option string -> namespace_info) : option string -> string -> Prop :=
| rc_here p kv : In kv (ni_attrs (browse p)) -> reached browse p (fst kv)
| rc_below p ns k : In ns (ni_sub (browse p)) -> reached browse (Some ns) k -> reached browse p k.

(* ---------- for the examples ---------- *)
Definition sample_entry (key brief : string) (deprecated : bool) : entry :=
  {| en_key := key; en_brief := brief; en_note := ""; en_stability := SStable; en_deprecated := deprecated; en_template := false; en_rest := JNull |}.
Definition sample_attributes (l : list entry) : sregistry :=
  {| sr_attributes := l; sr_metrics := []; sr_spans := []; sr_events := []; sr_entities := [] |}.
(* the key lies inside the namespace of this name *)
Definition inside (sep ns key : string) : Prop := exists r, key = ns ++ sep ++ r.
(* the key has no empty segment before a separator *)
Definition neat (sep key : string) : Prop := forall a b, key = a ++ sep ++ b -> a <> "" /\ forall c, a <> c ++ sep.

(* ---------- lookups ---------- *)
(* the last one of these with this key *)
Definition last_named (P : entry -> Prop) (l : list entry) (k : string) (e : entry) : Prop :=
  en_key e = k /\ P e /\ exists a b, l = app a (e :: b) /\ forall x, In x b -> P x -> en_key x <> k.
(* the template whose key is the longest one that the name begins with, the first of them *)
Definition longest_template (l : list entry) (name : string) (e : entry) : Prop :=
  let fits x := en_template x = true /\ exists t, name = en_key x ++ t in
  fits e /\ exists a b, l = app a (e :: b) /\
    (forall x, In x a -> fits x -> String.length (en_key x) < String.length (en_key e)) /\
    (forall x, In x b -> fits x -> String.length (en_key x) <= String.length (en_key e)).
Definition sample_template (key brief : string) : entry :=
  {| en_key := key; en_brief := brief; en_note := ""; en_stability := SStable; en_deprecated := false; en_template := true; en_rest := JNull |}.
