(* What is said of the values of received telemetry, without the functions of the model. *)
From Coq Require Import String Ascii Bool Arith ZArith NArith List.
From Verif Require Import Json F64 SemTypes Resolved.
From Verif Require Import TeleModel.
From Verif Require InferModel.
Import ListNotations.

(* the digits of base 16, by their places *)
Definition digits16 : string := "0123456789abcdef".
Definition is_digit (n : nat) (c : ascii) : Prop := String.get n digits16 = Some c.
(* two digits for each byte, the high one first *)
Inductive hex_text : string -> string -> Prop :=
| ht_nil : hex_text "" ""
| ht_byte : forall c s h l t, is_digit (nat_of_ascii c / 16) h -> is_digit (nat_of_ascii c mod 16) l -> hex_text s t ->
    hex_text (String c s) (String h (String l t)).
(* the text of an id of [n] bytes; an id of another length has none *)
Definition id_text (n : nat) (id text : string) : Prop :=
  (String.length id = n /\ hex_text id text) \/ (String.length id <> n /\ text = ""%string).

(* a number as JSON: what has no JSON number is null *)
Inductive as_json : option onumber -> json -> Prop :=
| aj_int : forall z, as_json (Some (OInt z)) (JNum (NInt z))
| aj_finite : forall d q, decode d = FFin q -> as_json (Some (ODouble d)) (JNum (NFloat d))
| aj_not_finite : forall d, (forall q, decode d <> FFin q) -> as_json (Some (ODouble d)) JNull
| aj_none : as_json None JNull.

Definition time_text (utc : N -> string) (t : N) (text : string) : Prop :=
  ((t < 9223372036854775808)%N -> text = utc t) /\ ((9223372036854775808 <= t)%N -> text = ""%string).

Definition exemplar_as_sent (utc : N -> string) (e : oexemplar) (x : sexemplar) : Prop :=
  as_json (oe_value e) (sx_value x) /\ time_text utc (oe_time e) (sx_time x) /\
  id_text 8 (oe_span e) (sx_span x) /\ id_text 16 (oe_trace e) (sx_trace x).

Definition number_as_sent (utc : N -> string) (p : onumber_point) (x : snumber_point) : Prop :=
  as_json (np_value p) (ns_value x) /\ ns_flags x = np_flags p /\
  Forall2 (exemplar_as_sent utc) (np_exemplars p) (ns_exemplars x).
Definition histogram_as_sent (utc : N -> string) (p : ohistogram) (x : shistogram) : Prop :=
  (sh_count x, sh_sum x, sh_counts x, sh_bounds x) = (oh_count p, oh_sum p, oh_counts p, oh_bounds p) /\
  (sh_min x, sh_max x, sh_flags x) = (oh_min p, oh_max p, oh_flags p) /\
  Forall2 (exemplar_as_sent utc) (oh_exemplars p) (sh_exemplars x).
Definition exponential_as_sent (utc : N -> string) (p : oexponential) (x : sexponential) : Prop :=
  (sz_count x, sz_sum x, sz_scale x, sz_zero x, sz_threshold x) =
    (oz_count p, oz_sum p, oz_scale p, oz_zero p, oz_threshold p) /\
  (sz_positive x, sz_negative x) = (oz_positive p, oz_negative p) /\
  (sz_min x, sz_max x, sz_flags x) = (oz_min p, oz_max p, oz_flags p) /\
  Forall2 (exemplar_as_sent utc) (oz_exemplars p) (sz_exemplars x).

(* the id of a log is there when it has its length *)
Definition log_id (n : nat) (id : string) (text : option string) : Prop :=
  match text with Some t => String.length id = n /\ hex_text id t | None => String.length id <> n end.
Definition log_as_received (l : olog_record) (x : slog_record) : Prop :=
  ls_severity x = Some (lr_severity l) /\ ls_severity_text x = Some (lr_severity_text l) /\
  log_id 16 (lr_trace l) (ls_trace x) /\ log_id 8 (lr_span l) (ls_span x) /\
  (ls_body x = None <-> lr_body l = None \/ lr_body l = Some InferModel.AnyNone).

(* opentelemetry-proto's numbers of the codes and kinds *)
Definition code_number (c : status_code) : Z := match c with StUnset => 0 | StOk => 1 | StError => 2 end%Z.
Inductive kind_number : Z -> Resolved.span_kind -> Prop :=
| kn_internal : kind_number 1 SkInternal | kn_server : kind_number 2 SkServer | kn_client : kind_number 3 SkClient
| kn_producer : kind_number 4 SkProducer | kn_consumer : kind_number 5 SkConsumer.
