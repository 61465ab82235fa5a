(* What a template selects with the jq functions of weaver, in words. *)
From Coq Require Import String Ascii Bool Arith Permutation Sorted List.
Import ListNotations.
From Verif Require Import Base Json JqModel.
Local Open Scope string_scope.

(* the value under a key; nothing there is null *)
Definition the (k : string) (v : json) : json :=
  match v with JObj m => match slookup k m with Some x => x | None => JNull end | _ => JNull end.
Definition carries (k : string) (v : json) : Prop := exists m x, v = JObj m /\ In (k, x) m.

(* ---------- the options ---------- *)
(* excluded by its stability; "experimental" stands for everything before stable *)
Definition unwanted_stability (statuses : list json) (v : json) : Prop :=
  (exists s, the "stability" v = JStr s /\ In (JStr s) statuses) \/
  (the "stability" v = JNull /\ In JNull statuses) \/
  (In (JStr "experimental") statuses /\
   In (the "stability" v) [JStr "development"; JStr "alpha"; JStr "beta"; JStr "release_candidate"; JStr ""; JNull]).
(* annotated as not for generated code *)
Definition annotated_away (v : json) : Prop :=
  the "exclude" (the "code_generation" (the "annotations" v)) <> JNull /\
  the "exclude" (the "code_generation" (the "annotations" v)) <> JBool false.

Definition wanted (o : options) (v : json) : Prop :=
  (op_stable_only o = true -> the "stability" v = JStr "stable") /\
  (forall statuses, op_exclude_stability o = Some statuses -> ~ unwanted_stability statuses v) /\
  (op_ignore_annotations o = None -> ~ annotated_away v) /\
  (op_exclude_deprecated o = Some true -> ~ carries "deprecated" v).
(* its root namespace is not an excluded one *)
Definition wanted_namespace (o : options) (ns : string) : Prop :=
  forall names, op_exclude_namespace o = Some names -> ~ In (JStr ns) names.

(* the sublist of the elements that satisfy P, in the same order *)
Inductive chosen {A} (P : A -> Prop) : list A -> list A -> Prop :=
| chosen_nil : chosen P [] []
| chosen_keep : forall x l l', P x -> chosen P l l' -> chosen P (x :: l) (x :: l')
| chosen_drop : forall x l l', ~ P x -> chosen P l l' -> chosen P (x :: l) l'.

(* ---------- what an element becomes ---------- *)
(* the type of an attribute: of an enum the wanted members are left *)
Definition type_reduced (o : options) (t t' : json) : Prop :=
  match t with
  | JObj _ => (forall k, k <> "members" -> the k t' = the k t) /\
              exists ms ms', the "members" t = JArr ms /\ the "members" t' = JArr ms' /\ chosen (wanted o) ms ms'
  | _ => t' = t
  end.
(* an attribute as selected *)
Definition attribute_reduced (o : options) (v v' : json) : Prop :=
  type_reduced o (the "type" v) (the "type" v') /\
  forall k, k <> "type" -> the k v' = the k v.
Definition attribute_shown (o : options) (ns : string) (v v' : json) : Prop :=
  type_reduced o (the "type" v) (the "type" v') /\
  the "root_namespace" v' = JStr ns /\
  forall k, k <> "type" -> k <> "root_namespace" -> the k v' = the k v.
(* a list of attributes as selected: the wanted ones, in their order *)
Definition attributes_reduced (o : options) (l l' : list json) : Prop :=
  exists kept, chosen (wanted o) l kept /\ Forall2 (attribute_reduced o) kept l'.
(* a signal as selected *)
Definition signal_shown (o : options) (ns : string) (v v' : json) : Prop :=
  type_reduced o (the "type" v) (the "type" v') /\
  the "root_namespace" v' = JStr ns /\
  (match the "attributes" v with
   | JArr l => exists l', the "attributes" v' = JArr l' /\ attributes_reduced o l l'
   | _ => the "attributes" v' = JNull
   end) /\
  forall k, k <> "type" -> k <> "root_namespace" -> k <> "attributes" -> the k v' = the k v.

(* ---------- namespaces ---------- *)
(* the n-th piece of a text cut at its dots *)
Inductive piece : nat -> string -> string -> Prop :=
| piece_last : forall s, (forall a b, s <> a ++ "." ++ b) -> piece 0 s s
| piece_first : forall s rest, (forall a b, s <> a ++ "." ++ b) -> piece 0 (s ++ "." ++ rest) s
| piece_next : forall n s rest p, (forall a b, s <> a ++ "." ++ b) -> piece n rest p ->
    piece (S n) (s ++ "." ++ rest) p.
(* when only dotted names have a namespace *)
Definition own_piece (n : nat) (s ns : string) : Prop :=
  ((exists a b, s = a ++ "." ++ b) /\ piece n s ns) \/ ((forall a b, s <> a ++ "." ++ b) /\ ns = "other").

(* the namespace of an element *)
Definition attribute_namespace (o : options) (v : json) (ns : string) : Prop :=
  match op_v2 o with
  | Some true => exists s, the "key" v = JStr s /\ piece 0 s ns
  | _ => exists s, the "name" v = JStr s /\ own_piece 0 s ns
  end.
Definition signal_namespace (k : kind) (o : options) (v : json) (ns : string) : Prop :=
  match op_v2 o with
  | Some true => exists s, the (match k with Metric | Event => "name" | Span | Entity => "type" end) v = JStr s /\ piece 0 s ns
  | _ => exists s, the "id" v = JStr s /\ own_piece 1 s ns
  end.

(* ---------- documents as weaver writes them ---------- *)
Definition object (v : json) : Prop := exists m, v = JObj m.
Definition null_or_object (v : json) : Prop := v = JNull \/ object v.
(* the annotations can be read *)
Definition plain (v : json) : Prop :=
  object v /\ null_or_object (the "annotations" v) /\ null_or_object (the "code_generation" (the "annotations" v)).
Definition well_typed (v : json) : Prop :=
  plain v /\ match the "type" v with JObj t => exists ms, the "members" (JObj t) = JArr ms /\ Forall plain ms | _ => True end.
Definition well_formed (v : json) : Prop :=
  well_typed v /\
  match the "attributes" v with JArr l => Forall well_typed l | JNull => True | _ => False end.
Definition good_document (d : document) : Prop :=
  Forall (fun v => well_formed v /\ exists s, the "id" v = JStr s) (dc_groups d) /\
  (forall g l v, In g (dc_groups d) -> the "attributes" g = JArr l -> In v l -> exists s, the "name" v = JStr s) /\
  Forall (fun v => well_typed v /\ exists s, the "key" v = JStr s) (dc_attributes d) /\
  Forall (fun v => well_formed v /\ exists s, the "name" v = JStr s) (List.app (dc_metrics d) (dc_events d)) /\
  Forall (fun v => well_formed v /\ exists s, the "type" v = JStr s) (List.app (dc_spans d) (dc_entities d)).

(* the attributes a template can select, before the options are looked at *)
Definition candidate_attributes (d : document) (o : options) (l : list json) : Prop :=
  match op_v2 o with
  | Some true => l = dc_attributes d
  | _ => exists gs, chosen (fun g => the "type" g = JStr "attribute_group" /\ exists s, the "id" g = JStr ("registry." ++ s)) (dc_groups d) gs /\
           l = concat (map (fun g => match the "attributes" g with JArr l => l | _ => [] end) gs)
  end.
Definition candidate_signals (k : kind) (d : document) (o : options) (l : list json) : Prop :=
  match op_v2 o with
  | Some true => l = match k with Metric => dc_metrics d | Span => dc_spans d | Event => dc_events d | Entity => dc_entities d end
  | _ => chosen (fun g => the "type" g = JStr (match k with Metric => "metric" | Span => "span" | Event => "event" | Entity => "entity" end)) (dc_groups d) l
  end.

(* ---------- orders ---------- *)
(* null before texts, texts by their bytes *)
Definition text_le (a b : json) : Prop :=
  match a, b with
  | JStr x, JStr y => str_leb x y = true
  | JStr _, _ => False
  | _, _ => True
  end.
(* first by one thing, then by another *)
Definition by_then (f g : json -> json) (a b : json) : Prop :=
  text_le (f a) (f b) /\ (text_le (f b) (f a) -> text_le (g a) (g b)).
(* the value under one key if it is there, otherwise under the other: the name of an attribute
   or of a metric in either version *)
Definition field_or (a b : string) (v : json) : json :=
  match v with
  | JObj m => if existsb (fun p => String.eqb (fst p) a) m then the a v else the b v
  | _ => JNull
  end.
Definition signal_name_of (k : kind) : json -> json :=
  match k with
  | Metric => field_or "metric_name" "name"
  | Event => the "name"
  | Span | Entity => the "type"
  end.

(* ---------- selections ---------- *)
Definition attribute_selection (d : document) (o : options) (shown : list json) : Prop :=
  exists candidates kept,
    candidate_attributes d o candidates /\
    chosen (fun v => wanted o v /\ exists ns, attribute_namespace o v ns /\ wanted_namespace o ns) candidates kept /\
    Forall2 (fun v v' => exists ns, attribute_namespace o v ns /\ attribute_shown o ns v v') kept shown.
Definition signal_selection (k : kind) (d : document) (o : options) (shown : list json) : Prop :=
  exists candidates kept,
    candidate_signals k d o candidates /\
    chosen (fun v => wanted o v /\ exists ns, signal_namespace k o v ns /\ wanted_namespace o ns) candidates kept /\
    Forall2 (fun v v' => exists ns, signal_namespace k o v ns /\ signal_shown o ns v v') kept shown.

(* the groups of a selection: each namespace once and in order, its elements all in it and in
   the order of their names, nothing left out or added *)
Definition groups_of (le : json -> json -> Prop) (sel : list json) (gs : list (option string * list json)) : Prop :=
  Permutation.Permutation (concat (map snd gs)) sel /\
  Sorted.StronglySorted (fun a b => exists x y, fst a = Some x /\ fst b = Some y /\ str_leb x y = true /\ x <> y) gs /\
  Forall (fun g => snd g <> [] /\ Sorted.StronglySorted le (snd g) /\
                   exists ns, fst g = Some ns /\ forall v, In v (snd g) -> the "root_namespace" v = JStr ns) gs.

(* ---------- examples ---------- *)
Definition no_options : options :=
  {| op_v2 := None; op_stable_only := false; op_exclude_stability := None; op_ignore_annotations := None;
     op_exclude_deprecated := None; op_exclude_namespace := None |}.
Definition v2_options : options :=
  {| op_v2 := Some true; op_stable_only := true; op_exclude_stability := None; op_ignore_annotations := None;
     op_exclude_deprecated := None; op_exclude_namespace := None |}.
Definition empty_document : document :=
  {| dc_groups := []; dc_attributes := []; dc_metrics := []; dc_spans := []; dc_events := []; dc_entities := [] |}.
Definition excluded_from_code : json := JObj [("code_generation", JObj [("exclude", JBool true)])].
Definition with_name (n : string) (more : list (string * json)) : json := JObj (("name", JStr n) :: more).
Definition with_key (n : string) (more : list (string * json)) : json := JObj (("key", JStr n) :: more).
Definition registry_of (attributes : list json) : document :=
  {| dc_groups := [JObj [("id", JStr "registry.all"); ("type", JStr "attribute_group"); ("attributes", JArr attributes)]];
     dc_attributes := []; dc_metrics := []; dc_spans := []; dc_events := []; dc_entities := [] |}.
Definition v2_registry_of (attributes entities : list json) : document :=
  {| dc_groups := []; dc_attributes := attributes; dc_metrics := []; dc_spans := []; dc_events := []; dc_entities := entities |}.
(* a document with a bit of everything *)
Definition sample_document : document :=
  {| dc_groups :=
       [JObj [("id", JStr "registry.http"); ("type", JStr "attribute_group");
              ("attributes", JArr [with_name "url.path" [("stability", JStr "stable"); ("type", JStr "string")];
                                   with_name "http.route" [("stability", JStr "stable"); ("type", JStr "string")];
                                   with_name "http.method" [("stability", JStr "stable");
                                     ("type", JObj [("members", JArr [JObj [("id", JStr "get"); ("stability", JStr "stable")];
                                                                      JObj [("id", JStr "query"); ("stability", JStr "development")]])])];
                                   with_name "http.flavor" [("stability", JStr "development"); ("type", JStr "string")];
                                   with_name "http.secret" [("stability", JStr "stable"); ("annotations", excluded_from_code)]])];
        JObj [("id", JStr "metric.http.duration"); ("type", JStr "metric"); ("metric_name", JStr "http.duration"); ("stability", JStr "stable");
              ("attributes", JArr [with_name "http.route" [("stability", JStr "stable"); ("type", JStr "string")];
                                   with_name "http.flavor" [("stability", JStr "development"); ("type", JStr "string")]])];
        JObj [("id", JStr "metric.db.count"); ("type", JStr "metric"); ("metric_name", JStr "db.count"); ("stability", JStr "stable")]];
     dc_attributes := []; dc_metrics := []; dc_spans := []; dc_events := []; dc_entities := [] |}.
Definition sample_options : options :=
  {| op_v2 := Some false; op_stable_only := true; op_exclude_stability := None; op_ignore_annotations := None;
     op_exclude_deprecated := Some true; op_exclude_namespace := Some [JStr "url"; JStr "db"] |}.
