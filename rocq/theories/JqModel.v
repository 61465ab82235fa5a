(* The jq functions weaver gives to every template package, defaults/jq/semconv.jq: which
   attributes and signals of a registry a template sees, and in which groups.  They are
   programs of jq; what is modelled is what they compute.  The interpreter (crate jaq) is not
   modelled, of its builtins those used here are: a missing field reads as null, a field of
   anything but an object or null is an error (None), `index` finds an equal element, sorting
   is stable, null sorts before texts. *)
From Coq Require Import String Ascii Bool Arith Lia List.
Import ListNotations.
From Verif Require Import Base Json Str.
Local Open Scope string_scope.

(* `.k` *)
(* used by members_pass: semconv.jq 29-38, semconv.jq 43-50, semconv.jq 99-114 *)
Definition jfield (k : string) (v : json) : option json :=
  match v with
  | JObj m => Some (match slookup k m with Some x => x | None => JNull end)
  | JNull => Some JNull
  | _ => None
  end.
(* `has(k)`: an error on anything but an object *)
(* used by deprecated_filter: semconv.jq 120-132 *)
Definition jhas (k : string) (v : json) : option bool :=
  match v with
  | JObj m => Some (match slookup k m with Some _ => true | None => false end)
  | _ => None
  end.
(* `.k = x`, and `. + {k: x}` *)
(* used by members_pass: semconv.jq 29-38, semconv.jq 43-50, semconv.jq 99-114 *)
Definition jset (k : string) (x v : json) : option json :=
  match v with JObj m => Some (JObj (sinsert k x m)) | _ => None end.

(* used by pass: semconv.jq 29-38, semconv.jq 43-50, semconv.jq 99-114 *)
Fixpoint mapm {A B} (f : A -> option B) (l : list A) : option (list B) :=
  match l with
  | [] => Some []
  | x :: r => match f x, mapm f r with Some y, Some ys => Some (y :: ys) | _, _ => None end
  end.
(* `map(select(p))` *)
(* used by members_pass: semconv.jq 29-38, semconv.jq 43-50, semconv.jq 99-114 *)
Fixpoint jselect (p : json -> option bool) (l : list json) : option (list json) :=
  match l with
  | [] => Some []
  | x :: r => match p x, jselect p r with
              | Some b, Some ys => Some (if b then x :: ys else ys)
              | _, _ => None
              end
  end.
(* the options, an object in jq.  `stable_only` is looked at as true or not; the others also by
   whether they are there. *)
(* used by stability_filter: semconv.jq 27-53 *)
Record options := {
  op_v2 : option bool;
  op_stable_only : bool;
  op_exclude_stability : option (list json);
  op_ignore_annotations : option bool;
  op_exclude_deprecated : option bool;
  op_exclude_namespace : option (list json) }.

(* `index(x)` of a list of texts and nulls *)
(* used by expand_stability: semconv.jq 16-21 *)
Definition jindex (l : list json) (x : json) : bool :=
  existsb (fun y => match x, y with
                    | JStr a, JStr b => String.eqb a b
                    | JNull, JNull => true
                    | _, _ => false
                    end) l.

(* semconv.jq 16-21 *)
Definition expand_stability (l : list json) : list json :=
  if jindex l (JStr "experimental")
  then List.app l [JStr "development"; JStr "alpha"; JStr "beta"; JStr "release_candidate"; JStr ""; JNull]
  else l.

(* semconv.jq 29-38, 43-50, 99-114, 122-129: keep the elements that pass the test, and of an
   element with members the members that pass it.  `.type.members?` leaves a type without
   fields alone. *)
Definition members_pass (p : json -> option bool) (v : json) : option json :=
  match jfield "type" v with
  | Some (JObj t) =>
      match jfield "members" (JObj t) with
      | Some (JArr ms) =>
          match jselect p ms with
          | Some ms' => match jset "members" (JArr ms') (JObj t) with
                        | Some t' => jset "type" t' v
                        | None => None
                        end
          | None => None
          end
      | _ => None
      end
  | Some _ => Some v
  | None => None
  end.
(* as above: semconv.jq 29-38, semconv.jq 43-50, semconv.jq 99-114 *)
Definition pass (p : json -> option bool) (l : list json) : option (list json) :=
  match jselect p l with Some l' => mapm (members_pass p) l' | None => None end.

(* semconv.jq 30, 43 *)
Definition is_stable (v : json) : option bool :=
  match jfield "stability" v with
  | Some (JStr s) => Some (String.eqb s "stable")
  | Some _ => Some false
  | None => None
  end.
(* used by stability_filter: semconv.jq 27-53 *)
Definition not_excluded (l : list json) (v : json) : option bool :=
  match jfield "stability" v with
  | Some s => Some (negb (jindex (expand_stability l) s))
  | None => None
  end.
(* semconv.jq 27-53 *)
Definition stability_filter (o : options) (l : list json) : option (list json) :=
  match (if op_stable_only o then pass is_stable l else Some l) with
  | Some l' => match op_exclude_stability o with Some e => pass (not_excluded e) l' | None => Some l' end
  | None => None
  end.
(* semconv.jq 99-104: `or` looks at its right side only when the left is false *)
Definition not_annotated (v : json) : option bool :=
  match jfield "annotations" v with
  | None => None
  | Some JNull => Some true
  | Some a =>
    match jfield "code_generation" a with
    | None => None
    | Some JNull => Some true
    | Some g =>
      match jfield "exclude" g with
      | None => None
      | Some JNull | Some (JBool false) => Some true
      | Some _ => Some false
      end
    end
  end.
(* semconv.jq 94-115 *)
Definition code_generation_exclude_filter (o : options) (l : list json) : option (list json) :=
  match op_ignore_annotations o with
  | Some _ => Some l
  | None => pass not_annotated l
  end.
(* semconv.jq 120-132 *)
Definition deprecated_filter (o : options) (l : list json) : option (list json) :=
  match op_exclude_deprecated o with
  | Some true => pass (fun v => option_map negb (jhas "deprecated" v)) l
  | _ => Some l
  end.
(* semconv.jq 156-158, 207-210 *)
Definition filters (o : options) (l : list json) : option (list json) :=
  match stability_filter o l with
  | Some l1 => match code_generation_exclude_filter o l1 with
               | Some l2 => deprecated_filter o l2
               | None => None
               end
  | None => None
  end.
(* semconv.jq 159-163, 211-215 *)
Definition namespace_filter (o : options) (l : list json) : option (list json) :=
  match op_exclude_namespace o with
  | Some e => jselect (fun v => option_map (fun n => negb (jindex e n)) (jfield "root_namespace" v)) l
  | None => Some l
  end.

(* a key to sort by: null or a text *)
(* used by get: semconv.jq 2-7 *)
Definition as_key (v : json) : option string := match v with JStr s => Some s | _ => None end.
(* used by sort_by: semconv.jq 10-12, semconv.jq 178-180 *)
Definition key_leb (a b : option string) : bool :=
  match a, b with
  | None, _ => true
  | Some _, None => false
  | Some x, Some y => str_leb x y
  end.
(* used by attribute_key: semconv.jq 2-7 *)
Definition get (k : string) (v : json) : option string :=
  match jfield k v with Some x => as_key x | None => None end.
(* `sort_by(k)` and `sort_by(k1, k2)` *)
(* used by group_by: semconv.jq 10-12, semconv.jq 178-180 *)
Definition sort_by (k : json -> option string) (l : list json) : list json :=
  stable_sort (fun a b => key_leb (k a) (k b)) l.
(* used by sort_by2: semconv.jq 146-164 *)
Definition key_eqb (a b : option string) : bool := key_leb a b && key_leb b a.
(* used by semconv_attributes: semconv.jq 146-164 *)
Definition sort_by2 (k1 k2 : json -> option string) (l : list json) : list json :=
  stable_sort (fun a b => if key_eqb (k1 a) (k1 b) then key_leb (k2 a) (k2 b) else key_leb (k1 a) (k1 b)) l.
(* `group_by(k)`: sorts and cuts where the key changes *)
(* used by group_by: semconv.jq 10-12, semconv.jq 178-180 *)
Fixpoint cut_groups (k : json -> option string) (l : list json) : list (list json) :=
  match l with
  | [] => []
  | x :: r => match cut_groups k r with
              | (y :: g) :: gs => if key_eqb (k x) (k y) then (x :: y :: g) :: gs else [x] :: (y :: g) :: gs
              | gs => [x] :: gs
              end
  end.
(* used by grouped: semconv.jq 10-12, semconv.jq 178-180 *)
Definition group_by (k : json -> option string) (l : list json) : list (list json) :=
  cut_groups k (sort_by k l).

(* semconv.jq 2-7: has("name") *)
Definition attribute_key (v : json) : option string :=
  match jhas "name" v with Some true => get "name" v | _ => get "key" v end.
(* semconv.jq 218-223 *)
Definition metric_key (v : json) : option string :=
  match jhas "metric_name" v with Some true => get "metric_name" v | _ => get "name" v end.

(* the document: what these functions read of it *)
(* used by named_attributes: semconv.jq 146-164 *)
Record document := {
  dc_groups : list json;        (* .groups *)
  dc_attributes : list json;    (* .registry.attributes *)
  dc_metrics : list json;       (* .registry.metrics *)
  dc_spans : list json;
  dc_events : list json;
  dc_entities : list json }.

(* used by named_attributes: semconv.jq 146-164 *)
Definition is_v2 (o : options) : bool := match op_v2 o with Some true => true | _ => false end.

(* `split(".")[0]` and `split(".") | .[1]` *)
(* used by named_attributes: semconv.jq 146-164 *)
Definition part (n : nat) (s : string) : json :=
  match nth_error (split_char "." s) n with Some p => JStr p | None => JNull end.
(* used by named_attributes: semconv.jq 146-164 *)
Definition add_namespace (f : string -> json) (k : string) (v : json) : option json :=
  match get k v with Some s => jset "root_namespace" (f s) v | None => None end.

(* semconv.jq 153: `map(.attributes) | add // []` *)
Fixpoint all_attributes (gs : list json) : option (list json) :=
  match gs with
  | [] => Some []
  | g :: r => match jfield "attributes" g, all_attributes r with
              | Some (JArr l), Some rest => Some (List.app l rest)
              | Some JNull, Some rest => Some rest
              | _, _ => None
              end
  end.
(* used by named_signals: semconv.jq 197-216, semconv.jq 56-61 *)
Definition is_type (t : string) (g : json) : bool :=
  match get "type" g with Some s => String.eqb s t | None => false end.
(* semconv.jq 152 *)
Definition registry_group (g : json) : option bool :=
  if is_type "attribute_group" g then option_map (starts_with "registry.") (get "id" g) else Some false.

(* semconv.jq 146-164 *)
Definition named_attributes (d : document) (o : options) : option (list json) :=
  if is_v2 o then mapm (add_namespace (part 0) "key") (dc_attributes d)
  else match jselect registry_group (dc_groups d) with
       | None => None
       | Some gs =>
         match all_attributes gs with
         | None => None
         | Some l => mapm (add_namespace (fun s => if contains "." s then part 0 s else JStr "other") "name") l
         end
       end.
(* as above: semconv.jq 146-164 *)
Definition then_ {A B} (x : option A) (f : A -> option B) : option B := match x with Some a => f a | None => None end.
(* as above: semconv.jq 146-164 *)
Definition semconv_attributes (d : document) (o : options) : option (list json) :=
  then_ (named_attributes d o) (fun l =>
  then_ (filters o l) (fun l =>
  then_ (namespace_filter o l) (fun l =>
    Some (sort_by2 (get "root_namespace") attribute_key l)))).

(* semconv.jq 10-12, 178-180; a group is its namespace and its list *)
Definition grouped (k : json -> option string) (l : list json) : list (option string * list json) :=
  map (fun g => (match g with x :: _ => get "root_namespace" x | [] => None end, sort_by k g))
      (group_by (get "root_namespace") l).
(* as above: semconv.jq 10-12, semconv.jq 178-180 *)
Definition semconv_grouped_attributes (d : document) (o : options) : option (list (option string * list json)) :=
  option_map (grouped attribute_key) (semconv_attributes d o).

(* the kinds of signals the functions below ask for *)
(* used by kind_name: semconv.jq 197-216, semconv.jq 56-61 *)
Inductive kind := Metric | Span | Event | Entity.
(* used by named_signals: semconv.jq 197-216, semconv.jq 56-61 *)
Definition kind_name (k : kind) : string :=
  match k with Metric => "metric" | Span => "span" | Event => "event" | Entity => "entity" end.
(* semconv.jq 64-89 *)
Definition signals_v2 (k : kind) (d : document) : list json :=
  match k with Metric => dc_metrics d | Span => dc_spans d | Event => dc_events d | Entity => dc_entities d end.
(* as above: semconv.jq 64-89 *)
Definition id_field (k : kind) : string :=
  match k with Metric | Event => "name" | Span | Entity => "type" end.
(* semconv.jq 210: `.attributes = (if .attributes == null then .attributes else .. end)` *)
Definition attributes_pass (o : options) (v : json) : option json :=
  match jfield "attributes" v with
  | Some JNull => jset "attributes" JNull v
  | Some (JArr l) => then_ (filters o l) (fun l' => jset "attributes" (JArr l') v)
  | _ => None
  end.
(* semconv.jq 197-216; signal_filter 56-61: none of the names asked for contains "resource" *)
Definition named_signals (k : kind) (d : document) (o : options) : option (list json) :=
  if is_v2 o then mapm (add_namespace (part 0) (id_field k)) (signals_v2 k d)
  else mapm (add_namespace (fun s => if contains "." s then part 1 s else JStr "other") "id")
            (filter (is_type (kind_name k)) (dc_groups d)).
(* as above: semconv.jq 197-216, semconv.jq 56-61 *)
Definition semconv_signal (k : kind) (d : document) (o : options) : option (list json) :=
  then_ (named_signals k d o) (fun l =>
  then_ (filters o l) (fun l =>
  then_ (mapm (attributes_pass o) l) (fun l =>
  then_ (namespace_filter o l) (fun l =>
    Some (sort_by (get "root_namespace") l))))).
(* semconv.jq 239, 271, 303, 335 and 227-229, 259-261, 291-293, 323-325 *)
Definition signal_key (k : kind) : json -> option string :=
  match k with Metric => metric_key | Event => get "name" | Span | Entity => get "type" end.
(* as above: semconv.jq 227-229, semconv.jq 259-261, semconv.jq 291-293 *)
Definition semconv_signals (k : kind) (d : document) (o : options) : option (list json) :=
  option_map (sort_by (signal_key k)) (semconv_signal k d o).
(* as above: semconv.jq 227-229, semconv.jq 259-261, semconv.jq 291-293 *)
Definition semconv_grouped_signals (k : kind) (d : document) (o : options) : option (list (option string * list json)) :=
  option_map (grouped (signal_key k)) (semconv_signals k d o).
