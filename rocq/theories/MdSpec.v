(* The markdown directives as a user writes them, and what an update is. *)
From Coq Require Import String Ascii Bool Arith List.
Import ListNotations.
From Verif Require Import Base SemTypes CodeSpec MdModel.
Local Open Scope string_scope.

(* spaces, tabs and line ends *)
Definition gap (s : string) : Prop := forall a c b, s = a ++ String c b -> In (nat_of_ascii c) [32; 9; 13; 10].

Definition letter (c : ascii) : Prop :=
  (65 <= nat_of_ascii c /\ nat_of_ascii c <= 90) \/ (97 <= nat_of_ascii c /\ nat_of_ascii c <= 122).
Definition digit (c : ascii) : Prop := 48 <= nat_of_ascii c /\ nat_of_ascii c <= 57.

(* an identifier: a letter, then letters, digits and the extra characters *)
Definition identifier (extra : list ascii) (s : string) : Prop :=
  exists c r, s = String c r /\ letter c /\
    forall a d b, r = a ++ String d b -> letter d \/ digit d \/ In d extra.
Definition id_text (s : string) : Prop := identifier ["."%char; "_"%char; "-"%char] s.
Definition tag_text (s : string) : Prop :=
  identifier ["_"%char; "-"%char] s \/
  exists r, s = "_" ++ r /\ forall a d b, r = a ++ String d b -> letter d \/ digit d \/ In d ["_"%char; "-"%char].

(* how a parameter is written *)
Inductive written : mdparam -> string -> Prop :=
| w_full : written PFull "full"
| w_metric_table : written PMetricTable "metric_table"
| w_omit : written POmit "omit_requirement_level"
| w_tag v : tag_text v -> written (PTag v) ("tag=" ++ v).

(* the parameters after an id: nothing, or a comma separated list in parentheses *)
Inductive written_all : list mdparam -> string -> Prop :=
| wa_none : written_all [] ""
| wa_list ps ts : Forall2 written ps ts -> written_all ps ("(" ++ join "," ts ++ ")").

(* <!-- semconv id(params) --> *)
Definition semconv_header (line : string) (a : semargs) : Prop :=
  exists g1 g2 ptext g3 g4,
    line = "<!--" ++ g1 ++ "semconv" ++ g2 ++ sa_id a ++ ptext ++ g3 ++ "-->" ++ g4 /\
    gap g1 /\ gap g2 /\ gap g3 /\ blank g4 /\ id_text (sa_id a) /\ written_all (sa_args a) ptext.

(* <!-- weaver template:t query -->; the words need not be separated *)
Definition weaver_header (line : string) (a : weavargs) : Prop :=
  exists g1 body g4,
    line = "<!--" ++ g1 ++ "weaver" ++ body ++ "-->" ++ g4 /\ gap g1 /\ blank g4 /\
    (forall x y, g1 ++ "weaver" ++ body ++ "-->" ++ g4 = x ++ "-->" ++ y ->
                 String.length (g1 ++ "weaver" ++ body) <= String.length x) /\
    exists g2 rest, body = g2 ++ rest /\ gap g2 /\
      (forall c r, rest = String c r -> ~ In (nat_of_ascii c) [32; 9; 13; 10]) /\
      match wa_template a with
      | Some t => exists q, rest = "template:" ++ t ++ q /\ id_text t /\
          (forall c r, q = String c r -> ~ (letter c \/ digit c \/ In c ["."%char; "_"%char; "-"%char])) /\
          trimmed q (wa_query a)
      | None => (forall t q, id_text t -> rest <> "template:" ++ t ++ q) /\ trimmed rest (wa_query a)
      end.

(* <!-- endsemconv --> *)
Definition trailer (word line : string) : Prop :=
  exists g1 g2 g3, line = "<!--" ++ g1 ++ word ++ g2 ++ "-->" ++ g3 /\ gap g1 /\ gap g2 /\ blank g3.

Definition eol : string := String newline "".

Section Updates.
  Variable gen_semconv : semargs -> res string.
  Variable gen_weaver : weavargs -> res string.

  (* every snippet is closed *)
  Inductive closed : list string -> Prop :=
  | cl_nil : closed []
  | cl_plain l ls : (forall a, ~ semconv_header l a) -> (forall a, ~ weaver_header l a) -> closed ls -> closed (l :: ls)
  | cl_semconv l a body t ls : semconv_header l a -> Forall (fun x => ~ trailer "endsemconv" x) body ->
      trailer "endsemconv" t -> closed ls -> closed (app (l :: body) (t :: ls))
  | cl_weaver l a body t ls : weaver_header l a -> Forall (fun x => ~ trailer "endweaver" x) body ->
      trailer "endweaver" t -> closed ls -> closed (app (l :: body) (t :: ls)).

  (* the document with every snippet body replaced by what its generator yields *)
  Inductive replaced : list string -> string -> Prop :=
  | rp_nil : replaced [] ""
  | rp_plain l ls o : (forall a, ~ semconv_header l a) -> (forall a, ~ weaver_header l a) -> replaced ls o ->
      replaced (l :: ls) (l ++ eol ++ o)
  | rp_semconv l a body t ls s o : semconv_header l a -> Forall (fun x => ~ trailer "endsemconv" x) body ->
      trailer "endsemconv" t -> gen_semconv a = Ok s -> replaced ls o ->
      replaced (app (l :: body) (t :: ls)) (l ++ eol ++ s ++ t ++ eol ++ o)
  | rp_weaver l a body t ls s o : weaver_header l a -> Forall (fun x => ~ trailer "endweaver" x) body ->
      trailer "endweaver" t -> gen_weaver a = Ok s -> replaced ls o ->
      replaced (app (l :: body) (t :: ls)) (l ++ eol ++ s ++ t ++ eol ++ o).

  (* a generated snippet is whole lines, none of which closes the snippet *)
  Definition snippet_text (word s : string) : Prop :=
    exists ls, reads_as s ls /\ (s = "" \/ exists a, s = a ++ eol) /\ Forall (fun x => ~ trailer word x) ls.
End Updates.

(* no line ends in a carriage return of its own *)
Definition no_return (ls : list string) : Prop := Forall (fun l => forall a, l <> a ++ String return_ "") ls.

(* registry.metrics.id, refinements.spans.id, ... *)
Definition lookup_word (k : lookup_kind) : string :=
  match k with
  | LAttribute => "attributes" | LAttributeGroup => "attribute_groups" | LSpan => "spans"
  | LMetric => "metrics" | LEvent => "events" | LEntity => "entities"
  end.
Definition lookup_text (l : idlookup) (s : string) : Prop :=
  match l with
  | LRegistry k id => id_text id /\ exists g, blank g /\ s = "registry." ++ lookup_word k ++ "." ++ id ++ g
  | LRefinement k id => id_text id /\ k <> LAttribute /\ k <> LAttributeGroup /\
      exists g, blank g /\ s = "refinements." ++ lookup_word k ++ "." ++ id ++ g
  end.
