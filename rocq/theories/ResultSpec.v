(* What "no error is lost" means, independently of the combinators. *)
From Coq Require Import String Bool Arith List Permutation.
Import ListNotations.
From Verif Require Import ResultModel.

(* the errors a result carries *)
Definition errors_of {T E} (r : wresult T E) : list E :=
  match r with
  | WOk _ => []
  | WOkNfe _ es => es
  | WFatal e => [e]
  end.

(* the value a result carries *)
Definition value_of {T E} (r : wresult T E) : option T :=
  match r with
  | WOk t | WOkNfe t _ => Some t
  | WFatal _ => None
  end.

(* the steps a caller can chain on a result *)
Inductive step (T E : Type) :=
| SExtend (es : list E)
| SCaptureWarnings
| SIgnore (ign : E -> bool)
| SMap (f : T -> T).
Arguments SExtend {T E} es.
Arguments SCaptureWarnings {T E}.
Arguments SIgnore {T E} ign.
Arguments SMap {T E} f.

Definition run_step {T E} (sev : E -> option severity) (future : bool)
  (st : wresult T E * list (diag E)) (s : step T E) : wresult T E * list (diag E) :=
  match s with
  | SExtend es => (extend_nfes (fst st) es, snd st)
  | SCaptureWarnings => capture_warnings sev future (fst st) (snd st)
  | SIgnore ign => (ignore_nfes ign (fst st), snd st)
  | SMap f => (wmap f (fst st), snd st)
  end.

Definition run_steps {T E} (sev : E -> option severity) (future : bool)
  (st : wresult T E * list (diag E)) (ss : list (step T E)) :=
  fold_left (run_step sev future) ss st.

(* errors handed in along the way *)
Definition added {T E} (ss : list (step T E)) : list E :=
  flat_map (fun s => match s with SExtend es => es | _ => [] end) ss.

(* the caller asked for this error to be dropped *)
Definition asked_to_ignore {T E} (ss : list (step T E)) (e : E) : Prop :=
  exists ign, In (SIgnore ign) ss /\ ign e = true.

(* a message counts as an error unless it is a warning or an advice *)
Definition counts_as_error {E} (d : diag E) : Prop :=
  dm_severity d <> Some SevWarning /\ dm_severity d <> Some SevAdvice.
