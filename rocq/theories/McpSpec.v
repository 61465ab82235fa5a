(** Vocabulary for the claims about the live_check tool of the MCP server. *)
From Coq Require Import String Ascii Bool Arith List.
From Verif Require Import Base Json SemTypes LiveModel LiveAdvisors LiveSpec McpModel.
Import ListNotations.
Local Open Scope string_scope.
Local Open Scope list_scope.
Local Open Scope nat_scope.

(* the findings attached to a result *)
Definition findings_of (r : option lcr) : list finding := match r with Some l => all_advice l | None => [] end.
Definition short (f : finding) : cfinding := {| cf_id := f_id f; cf_level := f_level f; cf_message := f_message f |}.

(* A part of a checked sample the compact form looks at: how it is labelled, its own
   findings if they are looked at, its attributes if they are. *)
Record part := {
  pt_type : option string; pt_name : option string;
  pt_own : option (list finding); pt_attrs : option (list sattr)
}.
Definition attributes_part (t : string) (l : list sattr) : part :=
  {| pt_type := Some t; pt_name := None; pt_own := None; pt_attrs := Some l |}.
Definition parts (s : sample) : list part :=
  match s with
  | SmpAttribute a =>
    [{| pt_type := None; pt_name := Some (sa_name a); pt_own := Some (findings_of (sa_result a)); pt_attrs := None |}]
  | SmpSpan x =>
    {| pt_type := Some "span"; pt_name := None; pt_own := Some (findings_of (sp_result x)); pt_attrs := Some (sp_attrs x) |}
    :: map (fun e => attributes_part "span_event" (se_attrs e)) (sp_events x)
  | SmpSpanEvent e => [attributes_part "span_event" (se_attrs e)]
  | SmpSpanLink l => [attributes_part "span_link" (sl_attrs l)]
  | SmpResource r => [attributes_part "resource" (sr_attrs r)]
  | SmpScope c =>
    [{| pt_type := Some "instrumentation_scope"; pt_name := Some (sc_name c);
        pt_own := Some (findings_of (sc_result c)); pt_attrs := Some (sc_attrs c) |}]
  | SmpMetric m =>
    [{| pt_type := Some "metric"; pt_name := Some (sm_name m); pt_own := Some (findings_of (sm_result m)); pt_attrs := None |}]
  | SmpLog l => [attributes_part "log" (lg_attrs l)]
  | SmpProfile p => [attributes_part "profile" (pf_attrs p)]
  end.

(* all findings of a part *)
Definition part_findings (p : part) : list finding :=
  opt_get (pt_own p) [] ++ flat_map (fun a => findings_of (sa_result a)) (opt_get (pt_attrs p) []).

(* what an object says: its label, the findings of the part itself, and for each attribute
   with findings its name and these *)
Definition says_about (p : part) (e : centry) : Prop :=
  ce_type e = pt_type p /\ ce_name e = pt_name p /\
  ce_findings e = option_map (map short) (pt_own p) /\
  ce_attributes e =
    option_map (fun l => map (fun a => (sa_name a, map short (findings_of (sa_result a))))
                           (filter (fun a => 0 <? length (findings_of (sa_result a))) l)) (pt_attrs p).

(* one object for each part that has a finding, in order, none for the others *)
Inductive one_object_each : list part -> list centry -> Prop :=
| ooe_nil : one_object_each [] []
| ooe_clean p ps es : part_findings p = [] -> one_object_each ps es -> one_object_each (p :: ps) es
| ooe_says p ps e es : part_findings p <> [] -> says_about p e -> one_object_each ps es ->
    one_object_each (p :: ps) (e :: es).

(* all the findings of a report and all those a compact report mentions *)
Definition report_findings (out : list sample) : list cfinding :=
  map short (flat_map advice_of (flat_map entities out)).
Definition mentioned (es : list centry) : list cfinding :=
  flat_map (fun e => opt_get (ce_findings e) [] ++ flat_map snd (opt_get (ce_attributes e) [])) es.

Definition is_resource (s : sample) : Prop := exists r, s = SmpResource r.

(* a sample of which the compact form looks at everything *)
Definition compact_shows_all (s : sample) : Prop :=
  match s with
  | SmpAttribute _ | SmpScope _ => True
  | SmpSpan x => sp_links x = [] /\ forall e, In e (sp_events x) -> findings_of (se_result e) = []
  | SmpSpanEvent e => findings_of (se_result e) = []
  | SmpSpanLink l => findings_of (sl_result l) = []
  | SmpResource r => findings_of (sr_result r) = []
  | SmpMetric m => flat_map advice_of (ents_points (sm_points m)) = []
  | SmpLog l => findings_of (lg_result l) = []
  | SmpProfile p => findings_of (pf_result p) = []
  end.

(* samples: a registry with a metric on hosts and nothing else *)
Definition host_id : v2attr :=
  {| va_key := "host.id"; va_type := TPrim PString; va_deprecated := None; va_stability := SStable |}.
Definition host_entity : v2entity :=
  {| vn_type := "host"; vn_identity := [{| vs_base := host_id; vs_req := RRequired |}]; vn_description := [] |}.
Definition host_metric : v2metric :=
  {| vm_name := "m"; vm_instrument := Counter; vm_unit := "s"; vm_deprecated := None; vm_stability := SStable;
     vm_attributes := []; vm_associations := [ARef {| er_type := "host"; er_source := None |}] |}.
Definition host_reg : v2reg := V2Reg "https://acme.com/schemas/1.0.0" [host_id] [host_metric] [] [host_entity] [] [].
Definition silent : advisor := fun _ _ _ _ => Ok [].
Definition host_service : service := {| sv_registry := host_reg; sv_rego := fun _ => Ok silent |}.
Definition attr_named (n : string) : sattr :=
  {| sa_name := n; sa_value := Some (JStr "v"); sa_type := Some PString; sa_result := None |}.
Definition a_resource : sample := SmpResource {| sr_attrs := [attr_named "host.id"]; sr_result := None |}.
Definition a_metric (attrs : list string) : sample :=
  SmpMetric {| sm_name := "m"; sm_instrument := Supported Counter; sm_unit := "s";
    sm_points := Some (DPNumber [{| dp_attrs := map attr_named attrs; dp_exemplars := []; dp_result := None |}]);
    sm_result := None; sm_resource := None |}.
Definition a_log (event : string) : sample :=
  SmpLog {| lg_event := event; lg_attrs := [attr_named "host.id"]; lg_result := None; lg_resource := None |}.
Definition a_span : sample :=
  SmpSpan {| sp_name := "s"; sp_attrs := [attr_named "host.id"];
    sp_events := [{| se_name := "e1"; se_attrs := [attr_named "x"]; se_result := None |};
                  {| se_name := "e2"; se_attrs := [attr_named "y"]; se_result := None |}];
    sp_links := [{| sl_attrs := [attr_named "z"]; sl_result := None |}];
    sp_result := None; sp_resource := None |}.
Definition plain_text : json_text := fun _ => "".
