(* What describes the sender of exported findings.
   Models crates/weaver_live_check/src/otlp_logger.rs 25-52 (the resource detector) and
   crates/weaver_live_check/src/generated/entities.rs 24-160 (the two entities).
   How the SDK combines the detectors is not modelled. *)
From Coq Require Import String Ascii Bool Arith List.
Import ListNotations.
From Verif Require Import Base Str OtelModel.
Local Open Scope string_scope.
Local Open Scope list_scope.

(* used by detect: otlp_logger.rs 30-37: the two variables of the environment; None when they
   are not set or not Unicode (std::env::var is an error) *)
Record environment := mk_env { env_service_name : option string; env_attributes : option string }.

(* entities.rs 76-86: ServiceCriticality, displayed in snake case *)
Inductive criticality := Critical | High | Medium | Low.
(* as above: entities.rs 76-86 *)
Definition criticality_text (c : criticality) : string :=
  match c with Critical => "critical" | High => "high" | Medium => "medium" | Low => "low" end.

(* otlp_logger.rs 30-37: does the user name the service *)
Definition user_set_service_name (e : environment) : bool :=
  match env_service_name e with Some _ => true | None => false end ||
  match env_attributes e with
  | Some attrs =>
    existsb (fun kv => match split_once "="%char kv with Some (k, _) => String.eqb k "service.name" | None => false end)
      (split_char ","%char attrs)
  | None => false
  end.

(* otlp_logger.rs 29-51: detect; the version is that of the package *)
Definition detect (version : string) (e : environment) : list (string * string) :=
  (if user_set_service_name e then [] else [("service.name", "weaver")]) ++
  [("service.criticality", criticality_text Low); ("service.version", version)].

(* entities.rs 36-43: Service *)
Record service := mk_service { sv_name : string; sv_criticality : option criticality; sv_version : option string }.
(* entities.rs 48-58: Service::to_resource_attributes *)
Definition service_attributes (s : service) : list (string * string) :=
  [("service.name", sv_name s)] ++
  match sv_criticality s with Some c => [("service.criticality", criticality_text c)] | None => [] end ++
  match sv_version s with Some v => [("service.version", v)] | None => [] end.

(* entities.rs 142-168: SdkLanguage, displayed in snake case *)
Inductive language := Cpp | Dotnet | Erlang | Go | Java | Nodejs | Php | Python | Ruby | Rust | Swift | Webjs.
(* as above: entities.rs 142-168 *)
Definition language_text (l : language) : string :=
  match l with
  | Cpp => "cpp" | Dotnet => "dotnet" | Erlang => "erlang" | Go => "go" | Java => "java" | Nodejs => "nodejs"
  | Php => "php" | Python => "python" | Ruby => "ruby" | Rust => "rust" | Swift => "swift" | Webjs => "webjs"
  end.
(* entities.rs 100-108: TelemetrySdk *)
Record sdk := mk_sdk { sd_language : language; sd_name : string; sd_version : option string }.
(* entities.rs 113-124: TelemetrySdk::to_resource_attributes *)
Definition sdk_attributes (s : sdk) : list (string * string) :=
  [("telemetry.sdk.language", language_text (sd_language s)); ("telemetry.sdk.name", sd_name s)] ++
  match sd_version s with Some v => [("telemetry.sdk.version", v)] | None => [] end.
