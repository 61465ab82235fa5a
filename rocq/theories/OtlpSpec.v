(** Specification vocabulary for the OTLP log records of findings (C95). *)
From Coq Require Import String Ascii Bool Arith ZArith NArith DecimalString List.
From Verif Require Import Base Json SemTypes LiveModel LiveSpec OtlpModel.
Import ListNotations.
Local Open Scope string_scope.
Local Open Scope list_scope.

(** ** What a report tells *)

(** One finding of a report: the kind of the sample it is attached to, the finding, and the
    resource of the signal. *)
Definition news := (string * finding * option sresource)%type.

(** The findings of a result, under the kind of the sample. *)
Definition at_kind (k : string) (r : option lcr) : list (string * finding) :=
  match r with Some l => map (pair k) (all_advice l) | None => [] end.
Definition n_attr (a : sattr) := at_kind "attribute" (sa_result a).
Definition n_attrs := flat_map n_attr.
Definition n_exemplar (e : exemplar) := at_kind "exemplar" (ex_result e) ++ n_attrs (ex_attrs e).
Definition n_dpoint (k : string) (p : dpoint) :=
  at_kind k (dp_result p) ++ n_attrs (dp_attrs p) ++ flat_map n_exemplar (dp_exemplars p).
Definition n_points (p : option data_points) :=
  match p with
  | Some (DPNumber l) => flat_map (n_dpoint "number_data_point") l
  | Some (DPHistogram l) => flat_map (n_dpoint "histogram_data_point") l
  | Some (DPExponential l) => flat_map (n_dpoint "exponential_histogram_data_point") l
  | None => []
  end.
Definition n_span_event (e : sspan_event) := at_kind "span_event" (se_result e) ++ n_attrs (se_attrs e).
Definition n_span_link (e : sspan_link) := at_kind "span_link" (sl_result e) ++ n_attrs (sl_attrs e).

(** The findings of a checked sample, those of a signal before those of its parts. *)
Definition sample_news (s : sample) : list (string * finding) :=
  match s with
  | SmpAttribute a => n_attr a
  | SmpSpan x => at_kind "span" (sp_result x) ++ n_attrs (sp_attrs x) ++ flat_map n_span_event (sp_events x)
                 ++ flat_map n_span_link (sp_links x)
  | SmpSpanEvent x => n_span_event x
  | SmpSpanLink x => n_span_link x
  | SmpResource x => at_kind "resource" (sr_result x) ++ n_attrs (sr_attrs x)
  | SmpScope x => at_kind "instrumentation_scope" (sc_result x) ++ n_attrs (sc_attrs x)
  | SmpMetric x => at_kind "metric" (sm_result x) ++ n_points (sm_points x)
  | SmpLog x => at_kind "log" (lg_result x) ++ n_attrs (lg_attrs x)
  | SmpProfile x => at_kind "profile" (pf_result x) ++ n_attrs (pf_attrs x)
  end.
(** The resource a signal carries. *)
Definition carried_resource (s : sample) : option sresource :=
  match s with
  | SmpSpan x => sp_resource x | SmpMetric x => sm_resource x | SmpLog x => lg_resource x
  | SmpProfile x => pf_resource x | _ => None
  end.
Definition told (s : sample) : list news := map (fun kf => (kf, carried_resource s)) (sample_news s).

(** The kind of sample an emission is about. *)
Definition kind_of (r : sref) : string :=
  match r with
  | RfAttribute _ => "attribute" | RfSpan _ => "span" | RfSpanEvent _ => "span_event" | RfSpanLink _ => "span_link"
  | RfResource _ => "resource" | RfScope _ => "instrumentation_scope" | RfMetric _ => "metric"
  | RfNumberDP _ => "number_data_point" | RfHistogramDP _ => "histogram_data_point"
  | RfExponentialDP _ => "exponential_histogram_data_point" | RfExemplar _ => "exemplar"
  | RfLog _ => "log" | RfProfile _ => "profile"
  end.
Definition emitted (e : emission) : news :=
  (kind_of (em_sample e), em_finding e, carried_resource (em_signal e)).
(** What remains of an emission after the finding modifier. *)
Definition after (m : option modifier) (e : emission) : option news :=
  option_map (fun f => (kind_of (em_sample e), f, carried_resource (em_signal e)))
    (match m with Some m => modifier_apply m (em_finding e) (em_sample e) | None => Some (em_finding e) end).

(** ** What a record says *)

(** The attributes carry the key exactly once, with this value. *)
Definition reads (l : list (string * any_value)) (k : string) (v : any_value) : Prop :=
  filter (fun kv => String.eqb k (fst kv)) l = [(k, v)].
(** The attributes do not carry the key. *)
Definition silent (l : list (string * any_value)) (k : string) : Prop := ~ In k (map fst l).

Section Values.
  Variable to_f64 : Z -> N.
  Local Open Scope Z_scope.
  (** A JSON value as a log value: integers that fit 64 signed bits stay integers, arrays
      keep the members that have a value, and an array without any such member, an object
      and null have none. *)
  Inductive converts : json -> any_value -> Prop :=
  | cv_str s : converts (JStr s) (AString s)
  | cv_bool b : converts (JBool b) (ABool b)
  | cv_int z : - 2 ^ 63 <= z < 2 ^ 63 -> converts (JNum (NInt z)) (AInt z)
  | cv_big z : ~ (- 2 ^ 63 <= z < 2 ^ 63) -> converts (JNum (NInt z)) (ADouble (to_f64 z))
  | cv_float b : converts (JNum (NFloat b)) (ADouble b)
  | cv_arr l vs : members l vs -> vs <> [] -> converts (JArr l) (AList vs)
  with members : list json -> list any_value -> Prop :=
  | mb_nil : members [] []
  | mb_keep x v l vs : converts x v -> members l vs -> members (x :: l) (v :: vs)
  | mb_drop x l vs : mute x -> members l vs -> members (x :: l) vs
  with mute : json -> Prop :=
  | mt_null : mute JNull
  | mt_obj m : mute (JObj m)
  | mt_arr l : members l [] -> mute (JArr l).
End Values.

(** [leaf] is the scalar of [j] at [path]: object keys and array positions in decimal. *)
Inductive leaf_at : json -> list string -> json -> Prop :=
| leaf_here j : match j with JObj _ | JArr _ => False | _ => True end -> leaf_at j [] j
| leaf_key m k x p leaf : In (k, x) m -> leaf_at x p leaf -> leaf_at (JObj m) (k :: p) leaf
| leaf_index l i x p leaf :
    nth_error l i = Some x -> leaf_at x p leaf ->
    leaf_at (JArr l) (NilZero.string_of_uint (Nat.to_uint i) :: p) leaf.
(** A path with its segments joined by dots. *)
Definition dotted (p : list string) : string := String.concat "." p.

(** Every object key anywhere in the value meets [P]. *)
Inductive keys_meet (P : string -> Prop) : json -> Prop :=
| km_scalar j : match j with JObj _ | JArr _ => False | _ => True end -> keys_meet P j
| km_arr l : Forall (keys_meet P) l -> keys_meet P (JArr l)
| km_obj m : Forall (fun kv => P (fst kv) /\ keys_meet P (snd kv)) m -> keys_meet P (JObj m).
(** No object lists a key twice (serde_json's map). *)
Inductive unique_keys : json -> Prop :=
| uk_scalar j : match j with JObj _ | JArr _ => False | _ => True end -> unique_keys j
| uk_arr l : Forall unique_keys l -> unique_keys (JArr l)
| uk_obj m : NoDup (map fst m) -> Forall (fun kv => unique_keys (snd kv)) m -> unique_keys (JObj m).
Definition nonempty (k : string) : Prop := k <> "".
Fixpoint no_dot (k : string) : Prop :=
  match k with EmptyString => True | String c r => c <> "."%char /\ no_dot r end.

(** The attribute [k] with value [v] belongs to the record of a finding: [ctx] tells which
    key stands for which value of the context. *)
Definition severity_of (l : level) : severity :=
  match l with Violation => SevError | Improvement => SevWarn | Information => SevInfo end.
Definition level_word (l : level) : string :=
  match l with Violation => "violation" | Improvement => "improvement" | Information => "information" end.
Definition signal_types := ["span"; "resource"; "metric"; "log"; "profile"].
Inductive belongs (to_f64 : Z -> N) (ctx : string -> any_value -> Prop) (e : emission) : string -> any_value -> Prop :=
| bl_context k v : ctx k v -> belongs to_f64 ctx e ("weaver.finding.context." ++ k)%string v
| bl_id : belongs to_f64 ctx e "weaver.finding.id" (AString (f_id (em_finding e)))
| bl_level : belongs to_f64 ctx e "weaver.finding.level" (AString (level_word (f_level (em_finding e))))
| bl_resource r a j v :
    carried_resource (em_signal e) = Some r -> In a (sr_attrs r) -> sa_value a = Some j -> converts to_f64 j v ->
    belongs to_f64 ctx e ("weaver.finding.resource.attribute." ++ sa_name a)%string v
| bl_sample : belongs to_f64 ctx e "weaver.finding.sample.type" (AString (kind_of (em_sample e)))
| bl_name n : f_signal_name (em_finding e) = Some n -> belongs to_f64 ctx e "weaver.finding.signal.name" (AString n)
| bl_type t : f_signal_type (em_finding e) = Some t -> In t signal_types ->
    belongs to_f64 ctx e "weaver.finding.signal.type" (AString t).
(** The scalars of the context under their dotted paths. *)
Definition context_says (to_f64 : Z -> N) (f : finding) (k : string) (v : any_value) : Prop :=
  exists j path leaf, f_context f = Some j /\ leaf_at j path leaf /\ path <> [] /\ k = dotted path /\ converts to_f64 leaf v.

(** Samples. *)
Definition plain_finding (ctx : option json) : finding :=
  {| f_id := "x"; f_context := ctx; f_message := "m"; f_level := Violation; f_signal_type := Some "span"; f_signal_name := None |}.
Definition bare_span : sample :=
  SmpSpan {| sp_name := "s"; sp_attrs := []; sp_events := []; sp_links := []; sp_result := None; sp_resource := None |}.
Definition about_span (ctx : option json) : emission :=
  {| em_finding := plain_finding ctx; em_sample := RfAttribute {| sa_name := "a"; sa_value := None; sa_type := None; sa_result := None |};
     em_signal := bare_span |}.
Definition empty_checker (m : option modifier) : checker :=
  {| lc_registry := RegV1 []; lc_attributes := []; lc_templates := []; lc_metrics := []; lc_events := [];
     lc_entities := []; lc_advisors := []; lc_modifier := m |}.
Definition dropping : modifier :=
  {| overrides := []; filters := [{| cf_signal_type := None; cf_names := None; cf_exclude := Some ["missing_attribute"];
                                     cf_min_level := None; cf_exclude_samples := None |}] |}.
Definition lowering : modifier :=
  {| overrides := [{| co_signal_type := None; co_names := None; co_ids := None; co_level := Information |}]; filters := [] |}.
Definition an_attr : sattr := {| sa_name := "host.name"; sa_value := Some (JStr "h"); sa_type := None; sa_result := None |}.
Definition a_host : sample := SmpResource {| sr_attrs := [an_attr]; sr_result := None |}.
Definition a_cpu_metric : sample :=
  SmpMetric {| sm_name := "cpu"; sm_instrument := Unsupported "x"; sm_unit := "1";
     sm_points := Some (DPNumber [{| dp_attrs := [an_attr]; dp_exemplars := []; dp_result := None |}]);
     sm_result := None; sm_resource := None |}.
