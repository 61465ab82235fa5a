(* What it means for definitions to be valid, written without the validation functions. *)
From Coq Require Import String Ascii Bool Arith ZArith NArith List.
Import ListNotations.
From Verif Require Import Base Json SemTypes Resolved ResultModel ResultSpec VdirModel CodeSpec DefModel.
Local Open Scope string_scope.

(* ** examples *)
Inductive ekind := KBool | KInt | KDouble | KString.

(* single value: 0; list of values: 1; list of lists: 2 *)
Inductive has_shape : examples -> ekind -> nat -> Prop :=
| hs_b b : has_shape (EBool b) KBool 0 | hs_i z : has_shape (EInt z) KInt 0
| hs_d d : has_shape (EDouble d) KDouble 0 | hs_s s : has_shape (EString s) KString 0
| hs_bs l : has_shape (EBools l) KBool 1 | hs_is l : has_shape (EInts l) KInt 1
| hs_ds l : has_shape (EDoubles l) KDouble 1 | hs_ss l : has_shape (EStrings l) KString 1
| hs_bss l : has_shape (EListBools l) KBool 2 | hs_iss l : has_shape (EListInts l) KInt 2
| hs_dss l : has_shape (EListDoubles l) KDouble 2 | hs_sss l : has_shape (EListStrings l) KString 2.

(* a scalar type, or an array type, of a kind *)
Inductive prim_of : prim -> ekind -> bool -> Prop :=
| po_b : prim_of PBoolean KBool false | po_i : prim_of PInt KInt false
| po_d : prim_of PDouble KDouble false | po_s : prim_of PString KString false
| po_bs : prim_of PBooleans KBool true | po_is : prim_of PInts KInt true
| po_ds : prim_of PDoubles KDouble true | po_ss : prim_of PStrings KString true.

(* one example, or a list of examples, of the kind; for an array type a list of arrays *)
Definition prim_examples (e : examples) (p : prim) : Prop :=
  p = PAny \/
  (exists k, prim_of p k false /\ (has_shape e k 0 \/ has_shape e k 1)) \/
  (exists k, prim_of p k true /\ has_shape e k 2).
Definition fit (e : examples) (t : attr_type) : Prop :=
  match t with
  | TPrim p | TTemplate p => prim_examples e p
  | TEnum _ => True
  end.
(* forms of older conventions that are only warned about *)
Definition old_form (e : examples) (t : attr_type) : Prop :=
  match t with
  | TPrim p => exists k, prim_of p k true /\ has_shape e k 1
  | TTemplate p => p = PStrings /\ (has_shape e KString 0 \/ has_shape e KString 1)
  | TEnum _ => False
  end.
Definition text_type (t : attr_type) : Prop := t = TPrim PString \/ t = TPrim PStrings.

(* ** bodies *)

(* [v] is the value, or a field reached through maps *)
Inductive within : any_value -> any_value -> Prop :=
| wi_here v : within v v
| wi_field c fields f v : In f fields -> within f v -> within (AvMap c fields) v.

Definition common_of (v : any_value) : any_common :=
  match v with AvPrim _ c => c | AvMap c _ => c | AvMaps c _ => c | AvBytes c => c | AvUndefined c => c | AvEnum c _ => c end.
Definition body_fit (e : examples) (v : any_value) : Prop :=
  match v with
  | AvPrim p _ => p <> PAny /\ prim_examples e p
  | AvMap _ _ | AvMaps _ _ => exists d, has_shape e KString d
  | AvBytes _ | AvUndefined _ | AvEnum _ _ => True
  end.
(* the examples of one value *)
Definition value_examples (v : any_value) : Prop :=
  match ac_examples (common_of v) with
  | Some e => body_fit e v
  | None => forall c, v <> AvPrim PString c /\ v <> AvPrim PStrings c
  end.
(* the stability of one value *)
Definition value_stability (v : any_value) : Prop :=
  ac_stability (common_of v) <> None /\
  forall c ms m, v = AvEnum c ms -> In m ms -> ee_stability m <> None.

(* ** entity associations *)
Inductive well_formed : assoc string -> Prop :=
| wf_ref n : ~ blank n -> well_formed (ARef n)
| wf_one cs : cs <> [] -> (forall c, In c cs -> well_formed c) -> well_formed (AOneOf cs)
| wf_all cs : cs <> [] -> (forall c, In c cs -> well_formed c) -> well_formed (AAllOf cs).

(* the names at the leaves, from left to right *)
Fixpoint leaves (a : assoc string) : list string :=
  match a with
  | ARef n => [n]
  | AOneOf cs | AAllOf cs => flat_map leaves cs
  end.
(* the name occurs at a leaf *)
Inductive mentions : assoc string -> string -> Prop :=
| me_ref n : mentions (ARef n) n
| me_one cs c n : In c cs -> mentions c n -> mentions (AOneOf cs) n
| me_all cs c n : In c cs -> mentions c n -> mentions (AAllOf cs) n.

(* ** groups *)

(* the attributes referenced by a group, in order *)
Definition refs_of (g : group_spec) : list string :=
  flat_map (fun a => match a with SRef r => [rs_ref r] | SId _ => [] end) (gs_attributes g).

(* the rules whose breach is an error *)
Definition group_sound (g : group_spec) : Prop :=
  (gs_type g <> GSpan -> gs_type g <> GUndefined -> gs_span_kind g = None /\ gs_events g = []) /\
  (gs_type g = GEvent ->
     (gs_name g <> None \/ (gs_body g = None /\ gs_prefix g <> "")) /\
     (forall b v, gs_body g = Some b -> within b v -> value_examples v)) /\
  (gs_type g <> GEvent -> gs_body g = None) /\
  (gs_type g = GMetric -> gs_metric_name g <> None /\ gs_instrument g <> None /\ gs_unit g <> None) /\
  (forall i, In (SId i) (gs_attributes g) ->
     (is_brief i <> None \/ is_deprecated i <> None) /\
     (forall e, is_examples i = Some e -> fit e (is_type i) \/ old_form e (is_type i))) /\
  (gs_assocs g <> [] -> In (gs_type g) [GEvent; GMetric; GSpan]) /\
  (forall a, In a (gs_assocs g) -> well_formed a).

(* the rules whose breach is a warning *)
Definition unstructured (d : option deprecated) : Prop := exists n, d = Some (DUnspecified n).
Definition good_stability (s : option stability) : Prop := s <> None /\ s <> Some SDeprecated.
Definition group_clean (g : group_spec) : Prop :=
  gs_prefix g = "" /\
  (gs_type g <> GAttributeGroup -> gs_stability g <> None) /\
  gs_stability g <> Some SDeprecated /\
  NoDup (refs_of g) /\
  (gs_type g <> GMetric -> gs_type g <> GEvent -> gs_extends g <> None \/ gs_attributes g <> []) /\
  gs_type g <> GUndefined /\
  (gs_type g = GSpan -> gs_span_kind g <> None) /\
  (forall b v, gs_type g = GEvent -> gs_body g = Some b -> within b v -> value_stability v) /\
  ~ unstructured (gs_deprecated g) /\
  (forall i, In (SId i) (gs_attributes g) ->
     good_stability (is_stability i) /\
     (forall ms m, is_type i = TEnum ms -> In m ms -> good_stability (ee_stability m) /\ ~ unstructured (ee_deprecated m)) /\
     ~ unstructured (is_deprecated i) /\
     (forall e, is_examples i = Some e -> ~ old_form e (is_type i)) /\
     (is_examples i = None -> ~ text_type (is_type i))).

(* only warnings *)
Definition only_warnings (es : list spec_error) : Prop :=
  forall e, In e es -> spec_severity e = Some SevWarning.

(* ** type compatibility *)
Inductive compatible : prim -> prim -> Prop :=
| co_same p : compatible p p
| co_any_seen p : compatible PAny p
| co_any_declared p : compatible p PAny
| co_int : compatible PInt PDouble
| co_ints : compatible PInts PDoubles.

(* ** examples as written *)
Inductive literal : ekind -> json -> Prop :=
| li_b b : literal KBool (JBool b)
| li_i z : (-(2^63) <= z < 2^63)%Z -> literal KInt (JNum (NInt z))
| li_d d : literal KDouble (JNum (NFloat d))
| li_big z : ~ (-(2^63) <= z < 2^63)%Z -> literal KDouble (JNum (NInt z))
| li_s s : literal KString (JStr s).
Definition number (j : json) : Prop := literal KInt j \/ literal KDouble j.
(* a literal, a list of literals, a list of lists ... *)
Fixpoint nested (P : json -> Prop) (d : nat) (j : json) : Prop :=
  match d with
  | 0 => P j
  | S d' => exists l, j = JArr l /\ Forall (nested P d') l
  end.
(* numbers of a list are doubles as soon as one is not an integer; no element at all is an
   integer list *)
Definition shaped (k : ekind) (d : nat) (j : json) : Prop :=
  d <= 2 /\
  nested (fun x => literal k x \/ (k = KDouble /\ number x)) d j /\
  (k <> KInt -> ~ nested (literal KInt) d j) /\
  (d = 2 -> j <> JArr []).
(* the contents of examples; [f] is the conversion of integers to doubles *)
Inductive value_text (f : Z -> N) : value_spec -> json -> Prop :=
| vt_i z : value_text f (VInt z) (JNum (NInt z))
| vt_d d : value_text f (VDouble d) (JNum (NFloat d))
| vt_z z : value_text f (VDouble (f z)) (JNum (NInt z))
| vt_s s : value_text f (VString s) (JStr s)
| vt_b b : value_text f (VBool b) (JBool b).
Inductive contents (f : Z -> N) : examples -> json -> Prop :=
| ct_b b : contents f (EBool b) (JBool b)
| ct_i z : contents f (EInt z) (JNum (NInt z))
| ct_d d j : value_text f (VDouble d) j -> contents f (EDouble d) j
| ct_s s : contents f (EString s) (JStr s)
| ct_bs l : contents f (EBools l) (JArr (map JBool l))
| ct_is l : contents f (EInts l) (JArr (map (fun z => JNum (NInt z)) l))
| ct_ds l js : Forall2 (fun d j => value_text f (VDouble d) j) l js -> contents f (EDoubles l) (JArr js)
| ct_ss l : contents f (EStrings l) (JArr (map JStr l))
| ct_as l js : Forall2 (value_text f) l js -> contents f (EAnys l) (JArr js)
| ct_bss l : contents f (EListBools l) (JArr (map (fun x => JArr (map JBool x)) l))
| ct_iss l : contents f (EListInts l) (JArr (map (fun x => JArr (map (fun z => JNum (NInt z)) x)) l))
| ct_dss l js : Forall2 (fun x y => exists ys, y = JArr ys /\ Forall2 (fun d j => value_text f (VDouble d) j) x ys) l js ->
    contents f (EListDoubles l) (JArr js)
| ct_sss l : contents f (EListStrings l) (JArr (map (fun x => JArr (map JStr x)) l)).

(* ** version 2 definitions as groups *)
Definition annotated (m : list (string * json)) (o : option (list (string * json))) : Prop :=
  (m = [] /\ o = None) \/ (m <> [] /\ o = Some m).
Definition ref_as (role : option attr_role) (a : attr_ref2 * option bool) (x : attr_spec) : Prop :=
  exists r, x = SRef r /\
    rs_ref r = ar_ref (fst a) /\ rs_brief r = ar_brief (fst a) /\ rs_examples r = ar_examples (fst a) /\
    rs_req r = ar_req (fst a) /\ rs_note r = ar_note (fst a) /\ rs_stability r = ar_stability (fst a) /\
    rs_deprecated r = ar_deprecated (fst a) /\ annotated (ar_annotations (fst a)) (rs_annotations r) /\
    rs_sampling r = snd a /\ rs_role r = role /\ rs_tag r = None /\ rs_prefix r = false.
Definition def_as (a : attr_def2) (x : attr_spec) : Prop :=
  exists i, x = SId i /\
    is_id i = ad_key a /\ is_type i = ad_type a /\ is_examples i = ad_examples a /\
    is_brief i = Some (c_brief (ad_common a)) /\ is_note i = c_note (ad_common a) /\
    is_stability i = Some (c_stability (ad_common a)) /\ is_deprecated i = c_deprecated (ad_common a) /\
    annotated (c_annotations (ad_common a)) (is_annotations i) /\
    is_req i = RRecommended /\ is_tag i = None /\ is_sampling i = None /\ is_role i = None.
(* the attributes and the groups of a list, each in order *)
Definition attrs_of (l : list attr_or_group) : list (attr_ref2 * option bool) :=
  flat_map (fun u => match u with UAttr a s => [(a, s)] | UGroup _ => [] end) l.
Definition groups_of (l : list attr_or_group) : list string :=
  flat_map (fun u => match u with UAttr _ _ => [] | UGroup g => [g] end) l.
Definition uses (l : list attr_or_group) (g : group_spec) : Prop :=
  Forall2 (ref_as None) (attrs_of l) (gs_attributes g) /\ gs_include g = groups_of l.
Definition entity_uses (identity description : list attr_ref2) (g : group_spec) : Prop :=
  exists a b, gs_attributes g = (a ++ b)%list /\ gs_include g = [] /\
    Forall2 (fun r x => ref_as (Some Identifying) (r, None) x) identity a /\
    Forall2 (fun r x => ref_as (Some Descriptive) (r, None) x) description b.
Definition commonly (c : common) (g : group_spec) : Prop :=
  gs_brief g = c_brief c /\ gs_note g = c_note c /\ gs_stability g = Some (c_stability c) /\
  gs_deprecated g = c_deprecated c /\ annotated (c_annotations c) (gs_annotations g).
(* an absent text of a refinement is an empty text *)
Definition text_as (o : option string) (s : string) : Prop := (o = None /\ s = "") \/ o = Some s.
Definition refines (kind : string) (r : refining) (g : group_spec) : Prop :=
  gs_id g = rf_id r /\ gs_extends g = Some (kind ++ "." ++ rf_ref r) /\
  text_as (rf_brief r) (gs_brief g) /\ text_as (rf_note r) (gs_note g) /\
  gs_stability g = rf_stability r /\ gs_deprecated g = rf_deprecated r /\
  annotated (rf_annotations r) (gs_annotations g).
(* the fields that no version 2 definition uses *)
Definition unused (g : group_spec) : Prop :=
  gs_prefix g = "" /\ gs_events g = [] /\ gs_display_name g = None /\ gs_body g = None /\ gs_is_v2 g = true.

Definition entity_as (e : entity_def) (g : group_spec) : Prop :=
  gs_type g = GEntity /\ gs_id g = "entity." ++ ed_type e /\ gs_name g = Some (ed_type e) /\ gs_extends g = None /\
  commonly (ed_common e) g /\ entity_uses (ed_identity e) (ed_description e) g /\ gs_level g = ed_level e /\
  gs_assocs g = [] /\ unused g.
Definition event_as (e : event_def) (g : group_spec) : Prop :=
  gs_type g = GEvent /\ gs_id g = "event." ++ vd_name e /\ gs_name g = Some (vd_name e) /\ gs_extends g = None /\
  commonly (vd_common e) g /\ uses (vd_attributes e) g /\ gs_level g = vd_level e /\
  gs_assocs g = vd_assocs e /\ unused g.
Definition metric_as (m : metric_def) (g : group_spec) : Prop :=
  gs_type g = GMetric /\ gs_id g = "metric." ++ md_name m /\ gs_metric_name g = Some (md_name m) /\
  gs_instrument g = Some (md_instrument m) /\ gs_unit g = Some (md_unit m) /\ gs_extends g = None /\
  commonly (md_common m) g /\ uses (md_attributes m) g /\ gs_level g = md_level m /\
  gs_assocs g = md_assocs m /\ unused g.
Definition span_as (s : span_def) (g : group_spec) : Prop :=
  gs_type g = GSpan /\ gs_id g = "span." ++ sd_type s /\ gs_name g = Some (sd_type s) /\
  gs_span_kind g = Some (sd_kind s) /\ gs_span_name g = Some (sd_name s) /\ gs_extends g = None /\
  commonly (sd_common s) g /\ uses (sd_attributes s) g /\ gs_level g = sd_level s /\
  gs_assocs g = sd_assocs s /\ unused g.
Definition group_as (d : group_def) (g : group_spec) : Prop :=
  gs_type g = GAttributeGroup /\ gs_extends g = None /\ gs_assocs g = [] /\ unused g /\
  match d with
  | AgInternal id l => gs_id g = id /\ uses l g /\ gs_visibility g = Some Internal /\ gs_stability g = None
  | AgPublic id l c => gs_id g = id /\ uses l g /\ gs_visibility g = Some Public /\ commonly c g
  end.
Definition entity_refinement_as (r : entity_refinement) (g : group_spec) : Prop :=
  gs_type g = GEntity /\ refines "entity" (er_base r) g /\ entity_uses (er_identity r) (er_description r) g /\
  gs_name g = Some (rf_id (er_base r)) /\ gs_assocs g = [] /\ unused g.
Definition signal_refinement_as (t : group_type) (kind : string) (r : signal_refinement) (g : group_spec) : Prop :=
  gs_type g = t /\ refines kind (sr_base r) g /\ uses (sr_attributes r) g /\ gs_assocs g = sr_assocs r /\ unused g /\
  (t = GSpan -> gs_span_name g = sr_span_name r).
(* the definitions of attributes of a file form one group, if there are any *)
Definition attributes_as (file_name : string) (l : list attr_def2) (gs : list group_spec) : Prop :=
  match l with
  | [] => gs = []
  | _ => exists g, gs = [g] /\ gs_type g = GAttributeGroup /\ gs_id g = "registry." ++ file_name /\
         gs_visibility g = None /\ gs_extends g = None /\ gs_include g = [] /\ gs_assocs g = [] /\ unused g /\
         Forall2 def_as l (gs_attributes g)
  end.

(* two version 2 files say the same, up to what refinements cannot tell apart and the place of
   group references between attribute references *)
Definition same_uses (l l' : list attr_or_group) : Prop := attrs_of l = attrs_of l' /\ groups_of l = groups_of l'.
Definition same_text (a b : option string) : Prop := exists s, text_as a s /\ text_as b s.
Definition same_refining (r r' : refining) : Prop :=
  rf_id r = rf_id r' /\ rf_ref r = rf_ref r' /\ same_text (rf_brief r) (rf_brief r') /\
  same_text (rf_note r) (rf_note r') /\ rf_stability r = rf_stability r' /\
  rf_deprecated r = rf_deprecated r' /\ rf_annotations r = rf_annotations r'.
Definition same_entity_refinement (r r' : entity_refinement) : Prop :=
  same_refining (er_base r) (er_base r') /\ er_identity r = er_identity r' /\ er_description r = er_description r'.
Definition same_signal_refinement (span : bool) (r r' : signal_refinement) : Prop :=
  same_refining (sr_base r) (sr_base r') /\ same_uses (sr_attributes r) (sr_attributes r') /\
  sr_assocs r = sr_assocs r' /\ (span = true -> sr_span_name r = sr_span_name r').
Definition same_event (e e' : event_def) : Prop :=
  vd_name e = vd_name e' /\ same_uses (vd_attributes e) (vd_attributes e') /\ vd_assocs e = vd_assocs e' /\
  vd_level e = vd_level e' /\ vd_common e = vd_common e'.
Definition same_metric (m m' : metric_def) : Prop :=
  md_name m = md_name m' /\ md_instrument m = md_instrument m' /\ md_unit m = md_unit m' /\
  same_uses (md_attributes m) (md_attributes m') /\ md_assocs m = md_assocs m' /\
  md_level m = md_level m' /\ md_common m = md_common m'.
Definition same_span (s s' : span_def) : Prop :=
  sd_type s = sd_type s' /\ sd_kind s = sd_kind s' /\ sd_name s = sd_name s' /\
  same_uses (sd_attributes s) (sd_attributes s') /\ sd_assocs s = sd_assocs s' /\
  sd_level s = sd_level s' /\ sd_common s = sd_common s'.
Definition same_group (g g' : group_def) : Prop :=
  match g, g' with
  | AgInternal i l, AgInternal i' l' => i = i' /\ same_uses l l'
  | AgPublic i l c, AgPublic i' l' c' => i = i' /\ same_uses l l' /\ c = c'
  | _, _ => False
  end.
Definition same_file (s s' : spec2) : Prop :=
  s2d_attributes s = s2d_attributes s' /\ s2d_entities s = s2d_entities s' /\
  Forall2 same_event (s2d_events s) (s2d_events s') /\
  Forall2 same_metric (s2d_metrics s) (s2d_metrics s') /\
  Forall2 same_span (s2d_spans s) (s2d_spans s') /\
  Forall2 same_group (s2d_groups s) (s2d_groups s') /\
  Forall2 same_entity_refinement (s2d_entity_refinements s) (s2d_entity_refinements s') /\
  Forall2 (same_signal_refinement false) (s2d_event_refinements s) (s2d_event_refinements s') /\
  Forall2 (same_signal_refinement false) (s2d_metric_refinements s) (s2d_metric_refinements s') /\
  Forall2 (same_signal_refinement true) (s2d_span_refinements s) (s2d_span_refinements s') /\
  s2d_imports s = s2d_imports s'.

(* an attribute listed both as identity and as description *)
Definition in_both (identity description : list attr_ref2) (k : string) : Prop :=
  (exists a, In a identity /\ ar_ref a = k) /\ (exists a, In a description /\ ar_ref a = k).

(* the signals without a requirement level, in order *)
Definition lacking {A} (level : A -> option signal_level) (name : A -> string) (l : list A) : list spec_error :=
  map (fun x => ENoLevel (name x)) (filter (fun x => match level x with None => true | Some _ => false end) l).

(* ** file formats *)
Definition says (y : json) (key value : string) : Prop :=
  exists m, y = JObj m /\ slookup key m = Some (JStr value).
Definition silent (y : json) (key : string) : Prop := forall v, ~ says y key v.
Definition says_v2 (y : json) : Prop := says y "file_format" "definition/2" \/ says y "version" "2".
Definition says_v1 (y : json) : Prop :=
  ~ says_v2 y /\
  (says y "file_format" "definition/1" \/ says y "version" "1" \/ (silent y "file_format" /\ silent y "version")).
(* the mapping without the two keys *)
Definition body_of (y c : json) : Prop :=
  exists m m', y = JObj m /\ c = JObj m' /\
    m' = filter (fun kv => negb (str_mem (fst kv) ["file_format"; "version"])) m.
(* the warnings about the format of a file *)
Definition format_warnings (y : json) (w : list spec_error) : Prop :=
  exists a b, w = (a ++ b)%list /\
    ((silent y "version" /\ a = []) \/ (~ silent y "version" /\ a = [EVersionField])) /\
    ((~ says_v2 y /\ b = []) \/ (says_v2 y /\ b = [EUnstableFormat])).
