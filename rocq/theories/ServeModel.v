(* The HTTP server of weaver serve: src/serve/server.rs, handlers.rs, types.rs.
   Of axum, matchit, serde_urlencoded and tower-http is modelled what decides the answer: routes (a
   capture is one non-empty segment), percent decoding of captures, methods (GET also answers HEAD),
   query strings as their decoded pairs, and the CORS layer.  Parameters: whether bytes are UTF-8,
   lower case, jq, the embedded UI files, the JSON schemas and the OpenAPI document.  Bodies are the
   objects that are serialized, not their text.  The server never changes its state, so a request is
   answered by a function of the state and the request. *)
From Coq Require Import String Ascii Bool Arith NArith List.
Import ListNotations.
From Verif Require Import Base Json SemTypes Str SearchModel.
Local Open Scope string_scope.

(* ---------- requests and answers ---------- *)
(* used by get_target: server.rs 221-246 *)
Record request := { rq_method : string; rq_path : string; rq_query : list (string * string); rq_origin : option string }.
(* used by answer: handlers.rs 46-77 *)
Inductive body :=
| BEmpty
| BItem (k : skind) (e : entry)
| BError (message : string) (fields : list (string * string))
| BSchema (name : string)
| BStats (json_text : string)
| BSearch (query : option string) (total count offset : nat) (results : list (nat * item))
| BJson (v : json)
| BOpenApi
| BFile (path : string)
| BIndex
| BText (s : string).
(* used by reply: handlers.rs 46-77 *)
Record answer := { an_status : nat; an_body : body }.
(* used by get_schema: handlers.rs 46-77 *)
Definition reply (status : nat) (b : body) : answer := {| an_status := status; an_body := b |}.

(* ---------- paths ---------- *)
(* used by percent_decode: handlers.rs 46-77 *)
Definition hex_digit (c : ascii) : option nat :=
  let n := nat_of_ascii c in
  if Nat.leb 48 n && Nat.leb n 57 then Some (n - 48)
  else if Nat.leb 65 n && Nat.leb n 70 then Some (n - 55)
  else if Nat.leb 97 n && Nat.leb n 102 then Some (n - 87)
  else None.
(* percent_encoding::percent_decode: what is no escape stays *)
(* used by path_arg: handlers.rs 46-77 *)
Fixpoint percent_decode (s : string) : string :=
  match s with
  | EmptyString => EmptyString
  | String c r =>
    if Ascii.eqb c "%" then
      match r with
      | String h (String l r') =>
        match hex_digit h, hex_digit l with
        | Some a, Some b => String (ascii_of_nat (16 * a + b)) (percent_decode r')
        | _, _ => String c (percent_decode r)
        end
      | _ => String c (percent_decode r)
      end
    else String c (percent_decode r)
  end.
(* used by capture: server.rs 153-188 *)
Definition slash : ascii := "/".
(* used by capture: server.rs 153-188 *)
Fixpoint strip (p s : string) : option string :=
  match p, s with
  | EmptyString, _ => Some s
  | String c p', String d s' => if Ascii.eqb c d then strip p' s' else None
  | _, _ => None
  end.
(* a route that ends in a capture *)
(* used by item_route: server.rs 153-188 *)
Definition capture (prefix path : string) : option string :=
  match strip prefix path with
  | Some s => if negb (String.eqb s "") && negb (any_char (Ascii.eqb slash) s) then Some s else None
  | None => None
  end.
(* used by route: server.rs 153-188 *)
Inductive target :=
| THealth | TSchema (raw : string) | TStats | TItem (k : skind) (raw : string) | TSearch | TFilter | TOpenApi | TFallback.
(* server.rs 153-188 *)
Definition item_routes : list (skind * string) :=
  [(KAttribute, "/api/v1/registry/attribute/"); (KMetric, "/api/v1/registry/metric/"); (KSpan, "/api/v1/registry/span/");
   (KEvent, "/api/v1/registry/event/"); (KEntity, "/api/v1/registry/entity/")].
(* as above: server.rs 153-188 *)
Fixpoint item_route (l : list (skind * string)) (path : string) : option (skind * string) :=
  match l with
  | [] => None
  | (k, p) :: r => match capture p path with Some raw => Some (k, raw) | None => item_route r path end
  end.
(* as above: server.rs 153-188 *)
Definition route (path : string) : target :=
  if String.eqb path "/health" then THealth
  else if String.eqb path "/api/v1/registry/stats" then TStats
  else if String.eqb path "/api/v1/registry/search" then TSearch
  else if String.eqb path "/api/v1/registry/filter" then TFilter
  else if String.eqb path "/api/v1/openapi.json" then TOpenApi
  else match capture "/api/v1/schema/" path with
       | Some raw => TSchema raw
       | None => match item_route item_routes path with Some (k, raw) => TItem k raw | None => TFallback end
       end.

(* ---------- query strings: types.rs 27-56, 72-76 ---------- *)
Record search_params := {
  sp_q : option string; sp_type : option skind; sp_stability : option stability; sp_hide : bool; sp_limit : nat; sp_offset : nat
}.
(* as above: types.rs 27-56, types.rs 72-76 *)
Definition field (k : string) (q : list (string * string)) : res (option string) :=
  match filter (fun kv => String.eqb k (fst kv)) q with
  | [] => Ok None
  | [kv] => Ok (Some (snd kv))
  | _ => Err ("duplicate field `" ++ k ++ "`")
  end.
(* crates/weaver_search/src/types.rs 27-43 *)
Definition read_type (s : string) : res (option skind) :=
  if String.eqb s "all" then Ok None
  else if String.eqb s "attribute" then Ok (Some KAttribute)
  else if String.eqb s "metric" then Ok (Some KMetric)
  else if String.eqb s "span" then Ok (Some KSpan)
  else if String.eqb s "event" then Ok (Some KEvent)
  else if String.eqb s "entity" then Ok (Some KEntity)
  else Err "unknown variant".
(* crates/weaver_semconv/src/stability.rs 10-30 *)
Definition read_stability (s : string) : res stability :=
  if String.eqb s "deprecated" then Ok SDeprecated
  else if String.eqb s "stable" then Ok SStable
  else if String.eqb s "development" || String.eqb s "experimental" then Ok SDevelopment
  else if String.eqb s "alpha" then Ok SAlpha
  else if String.eqb s "beta" then Ok SBeta
  else if String.eqb s "release_candidate" then Ok SRc
  else Err "unknown variant".
(* as above: crates/weaver_semconv/src/stability.rs 10-30 *)
Definition read_bool (s : string) : res bool :=
  if String.eqb s "true" then Ok true else if String.eqb s "false" then Ok false else Err "provided string was not `true` or `false`".
(* usize::from_str on 64 bits *)
Fixpoint read_digits (acc : N) (s : string) : option N :=
  match s with
  | EmptyString => Some acc
  | String c r =>
    let n := nat_of_ascii c in
    if Nat.leb 48 n && Nat.leb n 57 then read_digits (acc * 10 + N.of_nat (n - 48))%N r else None
  end.
(* used by read_search: handlers.rs 270-294 *)
Definition read_usize (s : string) : res nat :=
  let d := match s with String "+" r => r | _ => s end in
  if String.eqb d "" then Err "invalid digit found in string"
  else match read_digits 0 d with
       | Some n => if N.ltb n (2 ^ 64) then Ok (N.to_nat n) else Err "number too large to fit in target type"
       | None => Err "invalid digit found in string"
       end.
(* used by read_search: handlers.rs 270-294 *)
Definition with_default {A} (d : A) (read : string -> res A) (o : option string) : res A :=
  match o with Some s => read s | None => Ok d end.
(* used by get_search: handlers.rs 270-294 *)
Definition read_search (q : list (string * string)) : res search_params :=
  let* fq := field "q" q in
  let* ft := field "type" q in
  let* fs := field "stability" q in
  let* fh := field "hide_deprecated" q in
  let* fl := field "limit" q in
  let* fo := field "offset" q in
  let* t := with_default None read_type ft in
  let* s := with_default None (fun s => let* x := read_stability s in Ok (Some x)) fs in
  let* h := with_default false read_bool fh in
  let* l := with_default 50 read_usize fl in
  let* o := with_default 0 read_usize fo in
  Ok {| sp_q := fq; sp_type := t; sp_stability := s; sp_hide := h; sp_limit := l; sp_offset := o |}.

(* ---------- the handlers ---------- *)
Section Serve.
  Variable utf8 : string -> bool.
  Variable lower : string -> string.
  (* run_filter_raw (weaver_forge lib.rs 158-169) on the registry that is served *)
  Variable run_filter : string -> res json.
  (* the files of the embedded UI *)
  Variable ui : list string.
  (* used by get_item: handlers.rs 112-259 *)
  Record state := { st_search : context; st_stats : string }.

  (* axum Path<String> *)
  (* used by get_schema: handlers.rs 46-77 *)
  Definition path_arg (raw : string) : res string :=
    let s := percent_decode raw in if utf8 s then Ok s else Err "Invalid UTF-8".
  (* used by get_schema: handlers.rs 46-77 *)
  Definition trim_slashes (s : string) : string := trim_start (Ascii.eqb slash) s.
  (* 47-60 *)
  Definition schema_names : list string := ["MaterializedRegistryV2"; "SemconvDefinitionV2"; "LiveCheckSample"].
  (* 46-77: get_schema; the schemas serialize *)
  Definition get_schema (raw : string) : answer :=
    match path_arg raw with
    | Err e => reply 400 (BText e)
    | Ok name =>
      let name := trim_slashes name in
      if existsb (String.eqb name) schema_names then reply 200 (BSchema name)
      else reply 404 (BError ("Schema '" ++ name ++ "' not found") [])
    end.
  (* 112-259: get_registry_attribute and the like *)
  Definition lookup (cx : context) (k : skind) (key : string) : option entry :=
    match k with
    | KAttribute => opt_or (get_attribute cx key) (get_template cx key)
    | KMetric => get_metric cx key
    | KSpan => get_span cx key
    | KEvent => get_event cx key
    | KEntity => get_entity cx key
    end.
  (* as above: handlers.rs 112-259 *)
  Definition not_found (k : skind) (key : string) : body :=
    match k with
    | KAttribute => BError "Attribute not found" [("key", key)]
    | KMetric => BError "Metric not found" [("name", key)]
    | KSpan => BError "Span not found" [("type", key)]
    | KEvent => BError "Event not found" [("name", key)]
    | KEntity => BError "Entity not found" [("type", key)]
    end.
  (* as above: handlers.rs 112-259 *)
  Definition get_item (st : state) (k : skind) (raw : string) : answer :=
    match path_arg raw with
    | Err e => reply 400 (BText e)
    | Ok key =>
      let key := trim_slashes key in
      match lookup (st_search st) k key with
      | Some e => reply 200 (BItem k e)
      | None => reply 404 (not_found k key)
      end
    end.
  (* 270-294: search_registry *)
  Definition get_search (st : state) (q : list (string * string)) : answer :=
    match read_search q with
    | Err e => reply 400 (BText e)
    | Ok p =>
      let '(total, count, results) := search_registry lower (st_search st) (sp_q p) (sp_type p) (sp_stability p) (sp_hide p) (sp_limit p) (sp_offset p) in
      reply 200 (BSearch (sp_q p) total count (sp_offset p) results)
    end.
  (* 306-346: filter_registry *)
  Definition get_filter (q : list (string * string)) : answer :=
    match field "filter" q with
    | Err e => reply 400 (BText e)
    | Ok f =>
      match run_filter (opt_get f ".") with
      | Ok v => reply 200 (BJson v)
      | Err e => reply 400 (BError e [])
      end
    end.
  (* server.rs 221-246: serve_ui *)
  Definition serve_ui (path : string) : answer :=
    let path := trim_slashes path in
    if existsb (String.eqb path) ui then reply 200 (BFile path)
    else if existsb (String.eqb "index.html") ui then reply 200 BIndex
    else reply 404 (BText "UI not available").
  (* as above: server.rs 221-246 *)
  Definition get_target (st : state) (t : target) (rq : request) : answer :=
    match t with
    | THealth => reply 200 BEmpty
    | TSchema raw => get_schema raw
    | TStats => reply 200 (BStats (st_stats st))
    | TItem k raw => get_item st k raw
    | TSearch => get_search st (rq_query rq)
    | TFilter => get_filter (rq_query rq)
    | TOpenApi => reply 200 BOpenApi
    | TFallback => serve_ui (rq_path rq)
    end.
  (* as above: server.rs 221-246 *)
  Definition without_body (a : answer) : answer := reply (an_status a) BEmpty.
  (* axum: get(handler) is for GET and HEAD, the fallback for every method; hyper sends no body for HEAD *)
  (* src/serve/server.rs 156-192, the methods axum and hyper answer *)
  Definition handle (st : state) (rq : request) : answer :=
    let t := route (rq_path rq) in
    let a := match t with
             | TFallback => get_target st t rq
             | _ => if String.eqb (rq_method rq) "GET" || String.eqb (rq_method rq) "HEAD" then get_target st t rq else reply 405 BEmpty
             end in
    if String.eqb (rq_method rq) "HEAD" then without_body a else a.
End Serve.

(* ---------- CORS: server.rs 190-214 ---------- *)
Inductive cors := CorsNone | CorsAny | CorsList (origins : list string).
(* as above: server.rs 190-214 *)
Inductive startup := Started (c : cors) | StartPanic.
(* http::HeaderValue::from_str; white space is ASCII here *)
(* part of server.rs 190-214 *)
Definition header_char (c : ascii) : bool :=
  let n := nat_of_ascii c in (Nat.leb 32 n && Nat.ltb n 127) || Nat.eqb n 9.
(* part of server.rs 190-214 *)
Definition header_value (s : string) : bool := all_chars header_char s.
(* part of server.rs 190-214 *)
Definition trim (s : string) : string := trim_end is_white (trim_start is_white s).
(* AllowOrigin::list panics on a wildcard among the origins (tower-http) *)
(* part of server.rs 190-214 *)
Definition configure_cors (origins : option string) : startup :=
  match origins with
  | None => Started CorsNone
  | Some o =>
    if String.eqb o "*" then Started CorsAny
    else
      let l := map trim (split_char "," o) in
      if negb (forallb header_value l) then StartPanic
      else if existsb (String.eqb "*") l then StartPanic
      else Started (CorsList l)
  end.
(* the Access-Control-Allow-Origin header of an answer *)
(* part of server.rs 190-214 *)
Definition allow_origin (c : cors) (origin : option string) : option string :=
  match c with
  | CorsNone => None
  | CorsAny => Some "*"
  | CorsList l => match origin with Some o => if existsb (String.eqb o) l then Some o else None | None => None end
  end.
(* tower-http: an OPTIONS request is answered by the layer, with an empty 200 *)
Definition serve (utf8 : string -> bool) (lower : string -> string) (run_filter : string -> res json) (ui : list string)
  (c : cors) (st : state) (rq : request) : answer * option string :=
  let a := match c with
           | CorsNone => handle utf8 lower run_filter ui st rq
           | _ => if String.eqb (rq_method rq) "OPTIONS" then reply 200 BEmpty else handle utf8 lower run_filter ui st rq
           end in
  (a, allow_origin c (rq_origin rq)).
