(* Errors that are gathered, wrapped by another crate, turned into diagnostic messages and
   printed.  Cited files: crates/weaver_common/src/error.rs, crates/weaver_forge/src/error.rs,
   crates/weaver_forge/src/debug.rs, crates/weaver_resolver/src/error.rs,
   crates/weaver_resolved_schema/src/error.rs, crates/weaver_semconv/src/lib.rs,
   crates/weaver_semconv_gen/src/lib.rs, crates/weaver_common/src/diagnostic.rs, src/weaver.rs.
   Simplified: of an elementary error only its severity, its text and, for a failed template,
   its error_id are kept; how a collection or a wrapped error is printed is a parameter. *)
From Coq Require Import String DecimalString Bool Arith List.
From Verif Require Import ResultModel.
Import ListNotations.
Open Scope list_scope.

(* the crates with an error type of their own that is gathered or wrapped; KEngine stands for the
   two error types of the program: src/weaver.rs 548-569, src/registry/mod.rs 50-79 *)
Inductive crate := KCommon | KSemconv | KResolver | KSchema | KForge | KChecker | KGen | KEngine.

(* an error of a crate: an elementary one, a CompoundError, or a variant holding the error of
   another crate (#[from]): weaver_semconv/src/lib.rs 329-330, weaver_resolver/src/error.rs 18-25,
   weaver_forge/src/error.rs 311-321, weaver_semconv_gen/src/lib.rs 84-98, src/weaver.rs 552-563 *)
Inductive err :=
| Single (k : crate) (s : option severity) (text : string) (id : option string)
| Many (k : crate) (l : list err)
| Wrap (k : crate) (e : err).

(* the type of an error: as above *)
Definition crate_of (e : err) : crate :=
  match e with Single k _ _ _ => k | Many k _ => k | Wrap k _ => k end.

(* weaver_forge/src/error.rs 366-376; the same in weaver_resolver/src/error.rs 377-387,
   weaver_semconv/src/lib.rs 476-486, weaver_checker/src/lib.rs 122-132, weaver_common/src/lib.rs
   107-117, weaver_semconv_gen/src/lib.rs 207-217, weaver_resolved_schema/src/error.rs 77-91 *)
Definition compound (k : crate) (l : list err) : err :=
  Many k (flat_map (fun e => match e with Many _ es => es | e => [e] end) l).

(* weaver_common/src/error.rs 29-39 and, for the resolved schema, weaver_resolved_schema/src/error.rs
   65-71; None is Ok *)
Definition handle_errors (k : crate) (l : list err) : option err :=
  match k, l with
  | _, [] => None
  | KSchema, _ => Some (compound k l)
  | _, [e] => Some e
  | _, _ => Some (compound k l)
  end.

(* the conversions into DiagnosticMessages, before DiagnosticMessage::new: weaver_forge/src/error.rs
   330-343, weaver_resolver/src/error.rs 390-402, weaver_semconv/src/lib.rs 489-502,
   weaver_checker/src/lib.rs 135-147, weaver_common/src/lib.rs 120-132; weaver_semconv_gen/src/lib.rs
   221-239 (which also looks into its three wrappers); src/weaver.rs 571-575 and
   src/registry/mod.rs 81-85 (one message) *)
Fixpoint messages (e : err) : list err :=
  match e with
  | Single _ _ _ _ => [e]
  | Many _ l => flat_map messages l
  | Wrap KGen e' => messages e'
  | Wrap _ _ => [e]
  end.

(* #[diagnostic(transparent)]: weaver_resolver/src/error.rs 18-25; no other wrapper has it *)
Definition transparent (k : crate) : bool := match k with KResolver => true | _ => false end.
(* Diagnostic::severity as derived by miette: of a transparent variant the one of its content, of
   a variant without #[diagnostic(severity)] none: as above *)
Fixpoint severity_of (e : err) : option severity :=
  match e with
  | Single _ s _ _ => s
  | Many _ _ => None
  | Wrap k e' => if transparent k then severity_of e' else None
  end.

(* DiagnosticMessages::from: crates/weaver_common/src/diagnostic.rs 87-125 on each error *)
Definition diagnostics (future : bool) (e : err) : list (diag err) :=
  map (diag_new severity_of future) (messages e).

(* weaver_resolver/src/error.rs 408-417: what Error::log logs *)
Fixpoint logged (e : err) : list err :=
  match e with
  | Many _ l => flat_map logged l
  | _ => [e]
  end.

(* debug.rs 49-52: struct DedupError *)
Record dedup := { dd_error : string; dd_occurrences : nat }.
(* IndexMap::entry(k).and_modify(+1).or_insert(one): debug.rs 62-68, 71-77, 83-89 *)
Fixpoint count_in (key text : string) (m : list (string * dedup)) : list (string * dedup) :=
  match m with
  | [] => [(key, {| dd_error := text; dd_occurrences := 1 |})]
  | (k, d) :: r =>
    if String.eqb k key then (k, {| dd_error := dd_error d; dd_occurrences := S (dd_occurrences d) |}) :: r
    else (k, d) :: count_in key text r
  end.
(* debug.rs 58-79: one error of the collection *)
Definition dedup_step (show : err -> string) (m : list (string * dedup)) (e : err) : list (string * dedup) :=
  match e with
  | Single _ _ text (Some id) => count_in id text m
  | _ => count_in (show e) (show e) m
  end.
(* Display of usize: debug.rs 97-101 *)
Definition show_usize (n : nat) : string := NilEmpty.string_of_uint (Nat.to_uint n).
(* debug.rs 93-102 *)
Definition dedup_line (d : dedup) : string :=
  match dd_occurrences d with
  | 1 => dd_error d
  | 2 => dd_error d ++ "

Found 1 similar error"
  | n => dd_error d ++ "

Found " ++ show_usize (n - 1) ++ " similar errors"
  end%string.
(* debug.rs 48-104: print_dedup_errors; the lines given to the logger *)
Definition print_dedup (show : err -> string) (e : err) : list string :=
  map (fun kd => dedup_line (snd kd))
    (match e with
     | Many _ l => fold_left (dedup_step show) l []
     | _ => count_in (show e) (show e) []
     end).

(* an error of the template engine: its text, its text with details, and its source:
   minijinja::Error behind std::error::Error: debug.rs 12-21 *)
Inductive jinja_error := JError (plain detailed : string) (source : option jinja_error).
(* debug.rs 14-21: the chain of errors *)
Fixpoint chain (e : jinja_error) : list (string * string) :=
  match e with
  | JError p d None => [(p, d)]
  | JError p d (Some s) => (p, d) :: chain s
  end.
(* debug.rs 23-32: the loop; [total] is errors.len() *)
Fixpoint summary_from (total i : nat) (l : list (string * string)) : string :=
  match l with
  | [] => ""
  | (p, d) :: r =>
    ((if Nat.eqb i (total - 1) then d ++ "
" else p ++ "
Caused by:
") ++ summary_from total (S i) r)%string
  end.
(* debug.rs 12-33 *)
Definition error_summary (e : jinja_error) : string := summary_from (length (chain e)) 0 (chain e).
