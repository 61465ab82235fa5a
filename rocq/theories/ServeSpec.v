(* Vocabulary for C101: the HTTP server. *)
From Coq Require Import String Ascii Bool Arith NArith List.
Import ListNotations.
From Verif Require Import Base Json SemTypes SearchModel ServeModel.
From Verif Require CodeSpec SearchSpec ManifestSpec.
Local Open Scope string_scope.

(* ---------- paths ---------- *)
Definition hex_value (c : ascii) (n : nat) : Prop :=
  String.get n "0123456789abcdef" = Some c \/ String.get n "0123456789ABCDEF" = Some c.
(* the text [raw] of a path segment stands for the string: each character as it is, or escaped *)
Inductive encodes : string -> string -> Prop :=
| ec_nil : encodes "" ""
| ec_plain c raw s : c <> "%"%char -> c <> "/"%char -> encodes raw s -> encodes (String c raw) (String c s)
| ec_escape h l a b c raw s : hex_value h a -> hex_value l b -> nat_of_ascii c = 16 * a + b -> encodes raw s ->
    encodes (String "%" (String h (String l raw))) (String c s).
(* what may stand in a path without being escaped: letters, digits and - . _ ~ *)
Definition unreserved (c : ascii) : Prop :=
  let n := nat_of_ascii c in
  (48 <= n <= 57) \/ (65 <= n <= 90) \/ (97 <= n <= 122) \/ In c ["-"; "."; "_"; "~"]%char.
(* a text of unreserved characters and escapes *)
Inductive clean : string -> Prop :=
| cl_nil : clean ""
| cl_plain c s : unreserved c -> clean s -> clean (String c s)
| cl_escape h l a b s : hex_value h a -> hex_value l b -> clean s -> clean (String "%" (String h (String l s))).
Definition kind_name (k : skind) : string :=
  match k with KAttribute => "attribute" | KMetric => "metric" | KSpan => "span" | KEvent => "event" | KEntity => "entity" end.
Definition item_path (k : skind) (raw : string) : string := "/api/v1/registry/" ++ kind_name k ++ "/" ++ raw.
(* the paths of the API *)
Definition segment (s : string) : Prop := s <> "" /\ forall a b, s <> a ++ "/" ++ b.
Inductive api_path : string -> Prop :=
| ap_fixed p : In p ["/health"; "/api/v1/registry/stats"; "/api/v1/registry/search"; "/api/v1/registry/filter"; "/api/v1/openapi.json"] -> api_path p
| ap_schema s : segment s -> api_path ("/api/v1/schema/" ++ s)
| ap_item k s : segment s -> api_path (item_path k s).
Definition slashed (s : string) : Prop := exists r, s = "/" ++ r.

(* ---------- requests ---------- *)
Definition request_of (method path : string) (query : list (string * string)) (origin : option string) : request :=
  {| rq_method := method; rq_path := path; rq_query := query; rq_origin := origin |}.
Definition get_of (path : string) (query : list (string * string)) (origin : option string) : request := request_of "GET" path query origin.

(* ---------- what is served ---------- *)
(* the answer of the server for this registry *)
Definition answers (utf8 : string -> bool) (lower : string -> string) (run_filter : string -> res json) (ui : list string)
  (r : sregistry) (sep stats : string) (rq : request) : ServeModel.answer :=
  handle utf8 lower run_filter ui {| st_search := from_registry r sep; st_stats := stats |} rq.
Definition section (r : sregistry) (k : skind) : list entry :=
  match k with KAttribute => sr_attributes r | KMetric => sr_metrics r | KSpan => sr_spans r | KEvent => sr_events r | KEntity => sr_entities r end.
(* the object of this kind and key: the last one; of attributes and templates the last attribute *)
Definition holds (r : sregistry) (k : skind) (key : string) (e : entry) : Prop :=
  let last P := SearchSpec.last_named P (section r k) key in
  match k with
  | KAttribute => last (fun x => en_template x = false) e \/
                  ((forall x, ~ last (fun x => en_template x = false) x) /\ last (fun x => en_template x = true) e)
  | _ => last (fun _ => True) e
  end.

(* ---------- query strings ---------- *)
(* the parameter is not there, or there once with this value *)
Definition said (k : string) (q : list (string * string)) (o : option string) : Prop :=
  match o with
  | None => forall v, ~ In (k, v) q
  | Some v => exists a b, q = (a ++ (k, v) :: b)%list /\ (forall w, ~ In (k, w) a) /\ forall w, ~ In (k, w) b
  end.
Inductive type_name : string -> option skind -> Prop :=
| tn_all : type_name "all" None
| tn_kind k : type_name (kind_name k) (Some k).
Inductive digits : string -> nat -> Prop :=
| dg_one c d : String.get d "0123456789" = Some c -> digits (String c "") d
| dg_more s n c d : digits s n -> String.get d "0123456789" = Some c -> digits (s ++ String c "") (10 * n + d).
(* a number of 64 bits in decimal digits *)
Definition number (s : string) (n : nat) : Prop :=
  (digits s n \/ exists t, s = "+" ++ t /\ digits t n) /\ (N.of_nat n < 2 ^ 64)%N.
Definition flag (s : string) (b : bool) : Prop := (s = "true" /\ b = true) \/ (s = "false" /\ b = false).
Definition reads {A} (R : string -> A -> Prop) (default : A) (o : option string) (x : A) : Prop :=
  match o with Some s => R s x | None => x = default end.
(* the query string asks for this *)
Definition asks (q : list (string * string)) (p : search_params) : Prop :=
  said "q" q (sp_q p) /\
  (exists o, said "type" q o /\ reads type_name None o (sp_type p)) /\
  (exists o, said "stability" q o /\ reads (fun s x => exists y, x = Some y /\ ManifestSpec.stability_name s y) None o (sp_stability p)) /\
  (exists o, said "hide_deprecated" q o /\ reads flag false o (sp_hide p)) /\
  (exists o, said "limit" q o /\ reads number 50 o (sp_limit p)) /\
  (exists o, said "offset" q o /\ reads number 0 o (sp_offset p)).

(* ---------- CORS ---------- *)
(* [x] is one of the comma-separated origins, without the white space around it *)
Definition allows (origins x : string) : Prop :=
  exists l m, l <> [] /\ origins = join "," l /\ (forall p, In p l -> forall a b, p <> a ++ "," ++ b) /\ In m l /\ CodeSpec.trimmed m x.
Definition visible (c : ascii) : Prop := 32 <= nat_of_ascii c <= 126 \/ nat_of_ascii c = 9.

(* ---------- for the examples ---------- *)
Definition ascii_text (s : string) : bool := Str.all_chars (fun c => Nat.ltb (nat_of_ascii c) 128) s.
Definition sample_signal (key : string) : entry := SearchSpec.sample_entry key "" false.
Definition sample_registry : sregistry :=
  {| sr_attributes := [sample_signal "http.method"; SearchSpec.sample_template "http.header" ""]; sr_metrics := [sample_signal "a b/c"];
     sr_spans := []; sr_events := [sample_signal "/x"]; sr_entities := [] |}.
Definition state_of (r : sregistry) : state := {| st_search := from_registry r "."; st_stats := "{}" |}.
