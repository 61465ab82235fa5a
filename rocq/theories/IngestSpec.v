(* What reading OTLP messages for a live check should give, said without the functions that do it. *)
From Coq Require Import String Ascii Bool Arith ZArith NArith List.
Import ListNotations.
From Verif Require Import Base Json F64 SemTypes LiveModel LiveSpec IngestModel.
From Verif Require InferModel.
Local Open Scope string_scope.

(* how a sent value is read: a value that is no string, number, boolean or array of such is not read *)
Inductive read_as : InferModel.any_value -> option json -> Prop :=
| RNone : read_as InferModel.AnyNone None
| ROther : read_as InferModel.AnyOther None
| RString s : read_as (InferModel.AnyString s) (Some (JStr s))
| RInt z : read_as (InferModel.AnyInt z) (Some (JNum (NInt z)))
| RBool b : read_as (InferModel.AnyBool b) (Some (JBool b))
| RDouble d q : decode d = FFin q -> read_as (InferModel.AnyDouble d) (Some (JNum (NFloat d)))
| RNotFinite d : (forall q, decode d <> FFin q) -> read_as (InferModel.AnyDouble d) (Some JNull)
| RArray l js : read_list l js -> read_as (InferModel.AnyArray l) (Some (JArr js))
with read_list : list InferModel.any_value -> list json -> Prop :=
| RNil : read_list [] []
| RSkip a l js : read_as a None -> read_list l js -> read_list (a :: l) js
| RCons a j l js : read_as a (Some j) -> read_list l js -> read_list (a :: l) (j :: js).

Definition attr_as_sent (kv : key_value) (a : sattr) : Prop :=
  sa_name a = fst kv /\ read_as (snd kv) (sa_value a) /\ sa_result a = None /\
  (forall t, sa_type a = Some t <-> exists v, sa_value a = Some v /\ has_type v t).

Definition resource_as_sent (r : option (list key_value)) (s : option sresource) : Prop :=
  match r, s with
  | None, None => True
  | Some l, Some s => Forall2 attr_as_sent l (sr_attrs s) /\ sr_result s = None
  | _, _ => False
  end.

(* a scope is checked when it was sent, or when its schema URL was *)
Inductive scope_as_sent {A} (s : oscope A) : list sample -> Prop :=
| SNone : sc_scope s = None -> sc_url s = "" -> scope_as_sent s []
| SUrl x : sc_scope s = None -> sc_url s <> "" -> sc_name x = "" -> sc_attrs x = [] -> sc_result x = None ->
    scope_as_sent s [SmpScope x]
| SScope n l x : sc_scope s = Some (n, l) -> sc_name x = n -> Forall2 attr_as_sent l (sc_attrs x) -> sc_result x = None ->
    scope_as_sent s [SmpScope x].

Definition point_as_sent (p : opoint) (d : dpoint) : Prop :=
  Forall2 attr_as_sent (op_attrs p) (dp_attrs d) /\
  Forall2 (fun l e => Forall2 attr_as_sent l (ex_attrs e) /\ ex_result e = None) (op_exemplars p) (dp_exemplars d) /\
  dp_result d = None.
Inductive data_as_sent : odata -> sinstrument -> option data_points -> Prop :=
| DCounter l ps : Forall2 point_as_sent l ps -> data_as_sent (OSum true l) (Supported Counter) (Some (DPNumber ps))
| DUpDown l ps : Forall2 point_as_sent l ps -> data_as_sent (OSum false l) (Supported UpDownCounter) (Some (DPNumber ps))
| DGauge l ps : Forall2 point_as_sent l ps -> data_as_sent (OGauge l) (Supported Gauge) (Some (DPNumber ps))
| DHist l ps : Forall2 point_as_sent l ps -> data_as_sent (OHistogram l) (Supported Histogram) (Some (DPHistogram ps))
| DExp l ps : Forall2 point_as_sent l ps -> data_as_sent (OExponential l) (Supported Histogram) (Some (DPExponential ps))
| DSummary : data_as_sent OSummary (Unsupported "Summary") None
| DNothing : data_as_sent ONoData (Unsupported "Unspecified") None.

(* the item of one signal, sent by the resource [r] *)
Definition metric_as_sent (r : option sresource) (m : ometric) (s : sample) : Prop :=
  exists x, s = SmpMetric x /\ sm_name x = om_name m /\ sm_unit x = om_unit m /\
    data_as_sent (om_data m) (sm_instrument x) (sm_points x) /\ sm_result x = None /\ sm_resource x = r.
Definition log_as_sent (r : option sresource) (l : olog) (s : sample) : Prop :=
  exists x, s = SmpLog x /\ lg_event x = ol_event l /\ Forall2 attr_as_sent (ol_attrs l) (lg_attrs x) /\
    lg_result x = None /\ lg_resource x = r.
Definition span_as_sent (r : option sresource) (m : ospan) (s : sample) : Prop :=
  exists x, s = SmpSpan x /\ sp_name x = os_name m /\ Forall2 attr_as_sent (os_attrs m) (sp_attrs x) /\
    Forall2 (fun e y => se_name y = fst e /\ Forall2 attr_as_sent (snd e) (se_attrs y) /\ se_result y = None)
      (os_events m) (sp_events x) /\
    Forall2 (fun l y => Forall2 attr_as_sent l (sl_attrs y) /\ sl_result y = None) (os_links m) (sp_links x) /\
    sp_result x = None /\ sp_resource x = r.
(* the entry of a table at a place given by a signed number *)
Definition entry_at {A} (l : list A) (i : Z) (a : A) : Prop :=
  exists pre post, l = app pre (a :: post) /\ Z.of_nat (length pre) = i.
(* the attribute that a place in the dictionary stands for *)
Definition profile_attr (d : dictionary) (i : Z) (a : sattr) : Prop :=
  exists k v n, entry_at (di_attributes d) i (k, v) /\ attr_as_sent (n, v) a /\
    (entry_at (di_strings d) k n \/ n = "" /\ forall m, ~ entry_at (di_strings d) k m).
(* places outside the dictionary are passed over *)
Inductive profile_attrs (d : dictionary) : list Z -> list sattr -> Prop :=
| PNil : profile_attrs d [] []
| PSkip i l as' : (forall kv, ~ entry_at (di_attributes d) i kv) -> profile_attrs d l as' -> profile_attrs d (i :: l) as'
| PCons i l a as' : profile_attr d i a -> profile_attrs d l as' -> profile_attrs d (i :: l) (a :: as').
Definition profile_as_sent (d : option dictionary) (r : option sresource) (p : oprofile) (s : sample) : Prop :=
  exists x, s = SmpProfile x /\ pf_result x = None /\ pf_resource x = r /\
    match d with Some d => profile_attrs d (of_indices p) (pf_attrs x) | None => pf_attrs x = [] end.

(* what one resource sent: the resource, then for each scope the scope and its items *)
Definition block_as_sent {A} (item : option sresource -> A -> sample -> Prop) (b : osent A) (l : list sample) : Prop :=
  exists r scopes, resource_as_sent (se_resource b) r /\
    l = app (match r with Some r => [SmpResource r] | None => [] end) (concat scopes) /\
    Forall2 (fun s part => exists head tail, part = app head tail /\ scope_as_sent s head /\
               Forall2 (item r) (sc_items s) tail) (se_scopes b) scopes.
Definition message_as_sent (m : orequest) (l : list sample) : Prop :=
  exists parts, l = concat parts /\
    match m with
    | OLogs bs => Forall2 (block_as_sent log_as_sent) bs parts
    | OMetrics bs => Forall2 (block_as_sent metric_as_sent) bs parts
    | OTraces bs => Forall2 (block_as_sent span_as_sent) bs parts
    | OProfiles d bs => Forall2 (block_as_sent (profile_as_sent d)) bs parts
    | OStop | OError => False
    end.
(* a request to stop, or an error of the receiver *)
Definition ends_reading (m : orequest) : Prop := m = OStop \/ m = OError.

(* ---------- messages for the examples ---------- *)
Definition one_scope {A} (items : list A) : oscope A := {| sc_scope := Some ("lib", []); sc_url := ""; sc_items := items |}.
Definition sent_by {A} (r : option (list key_value)) (items : list A) : osent A :=
  {| se_resource := r; se_scopes := [one_scope items] |}.
Definition host (n : string) : list key_value := [("host.id", InferModel.AnyString n)].
Definition point (l : list key_value) : opoint := {| op_attrs := l; op_exemplars := [] |}.
Definition gauge (n : string) : ometric :=
  {| om_name := n; om_unit := "1"; om_data := OGauge [point [("a", InferModel.AnyInt 1)]] |}.
(* two senders, the second one without a resource *)
Definition two_senders : list orequest :=
  [OMetrics [sent_by (Some (host "h1")) [gauge "m1"]]; OMetrics [sent_by None [gauge "m2"]];
   OProfiles (Some {| di_attributes := [(1%Z, InferModel.AnyBool true)]; di_strings := ["x"; "y"] |})
     [sent_by None [{| of_indices := [0%Z; 7%Z; (-1)%Z] |}]];
   OError; OMetrics [sent_by None [gauge "m3"]]].
