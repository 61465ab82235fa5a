(* Results that carry non-fatal errors, and diagnostic collections.
   Models crates/weaver_common/src/result.rs, crates/weaver_common/src/diagnostic.rs
   and process_diagnostics of src/main.rs.
   The error type E is a parameter; [sev] is its [Diagnostic::severity], [compound]
   its [WeaverError::compound].  Rendering (ansi text, JSON) is not modelled. *)
From Coq Require Import String Ascii Bool Arith Lia List.
Import ListNotations.
From Verif Require Import Base SemTypes.

(* miette::Severity *)
(* used by diag: result.rs 99-109 *)
Inductive severity := SevAdvice | SevWarning | SevError.

(* no counterpart: PartialEq of miette::Severity *)
Definition severity_eqb (a b : severity) : bool :=
  match a, b with
  | SevAdvice, SevAdvice | SevWarning, SevWarning | SevError, SevError => true
  | _, _ => false
  end.

(* result.rs 18-28: enum WResult *)
Inductive wresult (T E : Type) :=
| WOk (t : T)
| WOkNfe (t : T) (nfes : list E)
| WFatal (e : E).
Arguments WOk {T E} t.
Arguments WOkNfe {T E} t nfes.
Arguments WFatal {T E} e.

(* std::result::Result *)
(* used by capture_nfes: result.rs 99-109 *)
Inductive result (T E : Type) :=
| ROk (t : T)
| RErr (e : E).
Arguments ROk {T E} t.
Arguments RErr {T E} e.

(* diagnostic.rs: struct DiagnosticMessage.  Simplified: the serialised error is
   the error itself, of the texts only the severity is kept. *)
(* used by diag_new: result.rs 99-109 *)
Record diag (E : Type) := mk_diag { dm_error : E; dm_severity : option severity }.
Arguments mk_diag {E} dm_error dm_severity.
Arguments dm_error {E} d.
Arguments dm_severity {E} d.

Section Results.
  Variables (T U E : Type).
  Variable sev : E -> option severity.
  Variable compound : list E -> E.

  (* diagnostic.rs, DiagnosticMessage::new: the severity of the error, forced to
     Error in future mode. *)
  (* used by capture_nfes: result.rs 99-109 *)
  Definition diag_new (future : bool) (e : E) : diag E :=
    mk_diag e (if future then Some SevError else sev e).

  (* result.rs 52-54 *)
  Definition is_fatal (r : wresult T E) : bool :=
    match r with WFatal _ => true | _ => false end.

  (* result.rs 57-63 *)
  Definition has_errors (r : wresult T E) : bool :=
    match r with
    | WOk _ => false
    | WOkNfe _ es => match es with [] => false | _ => true end
    | WFatal _ => true
    end.

  (* result.rs 66-72 *)
  Definition num_errors (r : wresult T E) : nat :=
    match r with
    | WOk _ => 0
    | WOkNfe _ es => length es
    | WFatal _ => 1
    end.

  (* result.rs 78-87 *)
  Definition extend_nfes (r : wresult T E) (es : list E) : wresult T E :=
    match r with
    | WOk t => WOkNfe t es
    | WOkNfe t items => WOkNfe t (items ++ es)
    | WFatal e => WFatal e
    end.

  (* result.rs 90-96 *)
  Definition with_nfes (t : T) (es : list E) : wresult T E :=
    match es with [] => WOk t | _ => WOkNfe t es end.

  (* result.rs 99-109: the diagnostics are appended to the caller's list *)
  Definition capture_nfes (future : bool) (r : wresult T E) (diags : list (diag E))
    : result T E * list (diag E) :=
    match r with
    | WOk t => (ROk t, diags)
    | WOkNfe t es => (ROk t, diags ++ map (diag_new future) es)
    | WFatal e => (RErr e, diags)
    end.

  (* result.rs 118: matches!(e.severity(), Some(Warning)) *)
  Definition is_warning (e : E) : bool :=
    match sev e with Some SevWarning => true | _ => false end.

  (* result.rs 113-130 *)
  Definition capture_warnings (future : bool) (r : wresult T E) (diags : list (diag E))
    : wresult T E * list (diag E) :=
    match r with
    | WOkNfe t es =>
      let '(warnings, errors) := partition is_warning es in
      (match errors with [] => WOk t | _ => WOkNfe t errors end,
       diags ++ map (diag_new future) warnings)
    | _ => (r, diags)
    end.

  (* result.rs 133-153 *)
  Definition ignore_nfes (ign : E -> bool) (r : wresult T E) : wresult T E :=
    match r with
    | WOkNfe t es =>
      match filter (fun e => negb (ign e)) es with
      | [] => WOk t
      | errors => WOkNfe t errors
      end
    | _ => r
    end.

  (* result.rs 170-189 *)
  Definition failing_nfes (r : wresult T E) : result T E :=
    match r with
    | WOk t => ROk t
    | WOkNfe t es =>
      match es with
      | [] => ROk t
      | [e] => RErr e
      | _ => RErr (compound es)
      end
    | WFatal e => RErr e
    end.

  (* result.rs 193-199 *)
  Definition result_with_nfes (r : wresult T E) : result (T * list E) E :=
    match r with
    | WOk t => ROk (t, [])
    | WOkNfe t es => ROk (t, es)
    | WFatal e => RErr e
    end.

  (* result.rs 203-209 *)
  Definition wmap (op : T -> U) (r : wresult T E) : wresult U E :=
    match r with
    | WOk t => WOk (op t)
    | WOkNfe t es => WOkNfe (op t) es
    | WFatal e => WFatal e
    end.

  (* diagnostic.rs: DiagnosticMessages::has_error; usize subtraction *)
  (* crates/weaver_common/src/diagnostic.rs 192-202 *)
  Definition has_error (ds : list (diag E)) : bool :=
    let non_error := count_if (fun d =>
      match dm_severity d with
      | Some SevWarning | Some SevAdvice => true
      | _ => false
      end) ds in
    Nat.ltb 0 (length ds - non_error).

  (* diagnostic.rs: DiagnosticMessage::is_warning *)
  (* used by process_diagnostics: src/main.rs 229-277 *)
  Definition diag_is_warning (d : diag E) : bool :=
    match dm_severity d with Some SevWarning => true | _ => false end.

  (* diagnostic.rs: ResultExt::capture_diag_msgs_into *)
  (* used by process_diagnostics: src/main.rs 229-277 *)
  Definition capture_diag_msgs (r : result T (list (diag E))) (diags : list (diag E))
    : option T * list (diag E) :=
    match r with
    | ROk v => (Some v, diags)
    | RErr ms => (None, diags ++ ms)
    end.

  (* diagnostic.rs: ResultExt::combine_diag_msgs_with *)
  (* used by process_diagnostics: src/main.rs 229-277 *)
  Definition combine_diag_msgs (r : result T (list (diag E))) (diags : list (diag E))
    : result T (list (diag E)) :=
    match r with
    | ROk v => ROk v
    | RErr ms => RErr (ms ++ diags)
    end.

  (* src/main.rs 88-94: struct ExitDirectives *)
  Record exit_directives := mk_exit { ed_code : nat; ed_warnings : option (list (diag E)) }.

  (* src/main.rs 229-277: process_diagnostics.  [render] is whether
     print_diagnostics succeeds on the given messages. *)
  Definition process_diagnostics (render : list (diag E) -> bool)
    (r : result exit_directives (list (diag E))) : exit_directives :=
    match r with
    | ROk d => d
    | RErr ms =>
      if negb (render ms) then mk_exit 1 None
      else if has_error ms then mk_exit 1 None
      else mk_exit 0 None
    end.

End Results.
Arguments is_fatal {T E} r.
Arguments has_errors {T E} r.
Arguments num_errors {T E} r.
Arguments extend_nfes {T E} r es.
Arguments with_nfes {T E} t es.
Arguments capture_nfes {T E} sev future r diags.
Arguments capture_warnings {T E} sev future r diags.
Arguments ignore_nfes {T E} ign r.
Arguments failing_nfes {T E} compound r.
Arguments result_with_nfes {T E} r.
Arguments wmap {T U E} op r.
Arguments has_error {E} ds.
Arguments diag_new {E} sev future e.
Arguments diag_is_warning {E} d.
Arguments capture_diag_msgs {T E} r diags.
Arguments combine_diag_msgs {T E} r diags.
Arguments mk_exit {E} ed_code ed_warnings.
Arguments ed_code {E} e.
Arguments ed_warnings {E} e.
Arguments process_diagnostics {E} render r.
