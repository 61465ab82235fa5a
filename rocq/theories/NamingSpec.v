(* What the naming policy of a live check says, in words: words of lower-case letters and
   digits, namespaces as dotted prefixes, and the attributes a registry declares. *)
From Coq Require Import String Ascii Bool Arith List.
Import ListNotations.
From Verif Require Import Json SemTypes LiveModel.
Local Open Scope string_scope.

(* ---------- names ---------- *)
Definition letter (c : ascii) : Prop := 97 <= nat_of_ascii c <= 122.
Definition digit (c : ascii) : Prop := 48 <= nat_of_ascii c <= 57.
(* a word: one or more lower-case letters and digits *)
Inductive word : string -> Prop :=
| word_one : forall c, letter c \/ digit c -> word (String c "")
| word_more : forall c s, letter c \/ digit c -> word s -> word (String c s).
(* words with single dots or underscores between them *)
Inductive words : string -> Prop :=
| words_one : forall w, word w -> words w
| words_more : forall w c s, word w -> c = "."%char \/ c = "_"%char -> words s -> words (w ++ String c s).
Definition proper_name (s : string) : Prop := words s /\ exists c t, s = String c t /\ letter c.

(* the name is in the namespace *)
Definition in_namespace (n ns : string) : Prop := exists rest, n = ns ++ "." ++ rest.

(* ---------- the attributes of a registry, in its order ---------- *)
Record decl := mk_decl { d_name : string; d_template : bool; d_deprecated : bool }.
Definition decls (r : registry) : list decl :=
  match r with
  | RegV1 gs =>
      concat (map (fun g => map (fun a =>
        mk_decl (at_name a) (match at_type a with TTemplate _ => true | _ => false end)
                (match at_deprecated a with Some _ => true | None => false end)) (vg_attributes g)) gs)
  | RegV2 v =>
      map (fun a => mk_decl (va_key a) (match va_type a with TTemplate _ => true | _ => false end)
                            (match va_deprecated a with Some _ => true | None => false end)) (v2_attrs v)
  end.
Definition declares (r : registry) (n : string) : Prop :=
  exists d, In d (decls r) /\ d_name d = n /\ d_template d = false.
Definition declares_template (r : registry) (t : string) : Prop :=
  exists d, In d (decls r) /\ d_name d = t /\ d_template d = true.
(* deprecated where the registry has the attribute for the last time *)
Definition deprecates (r : registry) (n : string) : Prop :=
  exists before d after, decls r = List.app before (d :: after) /\
    d_name d = n /\ d_template d = false /\ d_deprecated d = true /\
    forall e, In e after -> d_name e = n -> d_template e = true.
Definition has_namespace (r : registry) (ns : string) : Prop :=
  exists a, declares r a /\ in_namespace a ns.
(* the name begins with the name of a template *)
Definition begins_with_template (r : registry) (n : string) : Prop :=
  exists t rest, declares_template r t /\ n = t ++ rest.

(* ---------- the findings ---------- *)
Definition says (f : finding) (id : string) (l : level) (context : list (string * json)) (message : string)
    (stype sname : option string) : Prop :=
  f_id f = id /\ f_level f = l /\ f_context f = Some (JObj context) /\ f_message f = message /\
  f_signal_type f = stype /\ f_signal_name f = sname.

Inductive attribute_finding (r : registry) (n : string) (signal : sample) (f : finding) : Prop :=
| no_namespace :
    (forall ns, ~ in_namespace n ns) ->
    says f "missing_namespace" Improvement [("attribute_key", JStr n)]
      ("Attribute key '" ++ n ++ "' must include a namespace (e.g. '{namespace}.{attribute_key}')")
      (signal_type signal) (signal_name signal) -> attribute_finding r n signal f
| not_proper :
    ~ proper_name n -> ~ begins_with_template r n ->
    says f "invalid_format" Violation [("attribute_key", JStr n)]
      ("Attribute key '" ++ n ++ "' does not match name formatting rules.")
      (signal_type signal) (signal_name signal) -> attribute_finding r n signal f
| namespace_is_attribute : forall ns,
    in_namespace n ns -> declares r ns -> ~ deprecates r ns ->
    says f "illegal_namespace" Violation [("attribute_key", JStr n); ("namespace", JStr ns)]
      ("Namespace '" ++ ns ++ "' collides with existing attribute '" ++ n ++ "'")
      (signal_type signal) (signal_name signal) -> attribute_finding r n signal f
| extends_namespace : forall ns,
    ~ declares r n -> ~ begins_with_template r n ->
    in_namespace n ns -> has_namespace r ns ->
    (forall other, in_namespace n other -> has_namespace r other -> String.length other <= String.length ns) ->
    says f "extends_namespace" Information [("attribute_key", JStr n); ("namespace", JStr ns)]
      ("Attribute key '" ++ n ++ "' collides with existing namespace '" ++ ns ++ "'")
      (signal_type signal) (signal_name signal) -> attribute_finding r n signal f.

Definition metric_finding (n : string) (f : finding) : Prop :=
  ~ proper_name n /\
  says f "invalid_format" Violation [("metric_name", JStr n)]
    ("Metric name '" ++ n ++ "' does not match name formatting rules.") (Some "metric") (Some n).

(* what a user would take a template to cover: the template, a dot and a key *)
Definition instance_of_template (r : registry) (n : string) : Prop :=
  exists t key, declares_template r t /\ n = t ++ "." ++ key.
(* the namespaces of all attributes of the registry, templates included *)
Definition any_namespace (r : registry) (ns : string) : Prop :=
  exists d, In d (decls r) /\ in_namespace (d_name d) ns.

(* ---------- a registry ---------- *)
Definition v2a (k : string) (t : attr_type) (dep : option deprecated) : v2attr :=
  {| va_key := k; va_type := t; va_deprecated := dep; va_stability := SStable |}.
Definition naming_registry : registry :=
  RegV2 (V2Reg "https://acme.com/1" [
    v2a "server.port" (TPrim PInt) None;
    v2a "server.net.peer.name" (TPrim PString) None;
    v2a "http.method" (TPrim PString) (Some (DUnspecified ""));
    v2a "http.request.header" (TTemplate PString) None;
    v2a "rpc.metadata.key" (TTemplate PString) None] [] [] [] [] []).
Definition sent (n : string) : sref :=
  RfAttribute {| sa_name := n; sa_value := None; sa_type := None; sa_result := None |}.
Definition a_resource : sample :=
  SmpResource {| sr_attrs := []; sr_result := None |}.
