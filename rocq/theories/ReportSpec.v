(* What a live check should write, without the functions of the model. *)
From Coq Require Import String Ascii Bool Arith List.
From Verif Require Import Json ReportModel.
Import ListNotations.
Open Scope string_scope.

(* the resource that was seen last *)
Definition seen_last (before : list sample) (r : option json) : Prop :=
  match r with
  | None => forall x, In x before -> s_what x <> AResource
  | Some doc => exists a x b, before = (a ++ x :: b)%list /\ s_what x = AResource /\ s_doc x = doc /\
                              forall y, In y b -> s_what y <> AResource
  end.

(* the samples as they are checked: a signal has the resource seen last before it *)
Definition prepared (xs ys : list sample) : Prop :=
  length ys = length xs /\
  forall before x after, xs = (before ++ x :: after)%list ->
    exists y, nth_error ys (length before) = Some y /\
      match s_what x with
      | ASignal => s_what y = ASignal /\ s_doc y = s_doc x /\ seen_last before (s_resource y)
      | _ => y = x
      end.

(* the checks, one after the other *)
Inductive checked {St} (K : checks St) : St -> list sample -> list sample -> St -> Prop :=
| checked_nil : forall st, checked K st [] [] st
| checked_cons : forall st x y st1 xs ys st2,
    check K st x = Some (y, st1) -> checked K st1 xs ys st2 ->
    checked K st (x :: xs) (y :: ys) st2.

(* the text of a document *)
Definition text_of (P : printers) (o : output) (data : json) (text : string) : Prop :=
  match o with
  | Builtin f => text = ser P f data
  | Template n => render P n data = Some text
  | Mute => False
  end.

(* one line each *)
Fixpoint lines (ts : list string) : string :=
  match ts with
  | [] => ""
  | t :: ts' => t ++ String "010"%char (lines ts')
  end.

(* the command ends with this, unless the policies had errors *)
Definition ends_with_code (policy_errors : bool) (code : nat) (s : seen) (e : ended) : Prop :=
  e = if policy_errors then Error s else Exit code s.

(* the exit code the user asked for *)
Definition code_of {St} (K : checks St) (c : config) (st : St) (code : nat) : Prop :=
  (code = 1 /\ exists t, fail_on c = Some t /\ fails K (finalize K st) t = true) \/
  (code = 0 /\ forall t, fail_on c = Some t -> fails K (finalize K st) t = false).

(* a sample: the statistics count the samples, a sample named "bad" cannot be checked *)
Definition sample_checks : checks nat :=
  mk_checks nat
    (fun n x => match s_doc x with JStr "bad" => None | _ => Some (x, S n) end)
    (fun n => n) (fun n t => Nat.ltb 1 n) s_doc (fun n => JStr "stats") (JStr "disabled")
    (fun st ys => JArr (map s_doc ys ++ match st with Some _ => [JStr "stats"] | None => [] end)%list).

Definition sample_printers : printers :=
  mk_printers (fun _ d => match d with JStr s => s | _ => "?" end) (fun _ _ => None).

Definition nothing : seen := mk_seen "" None false None.
Definition one (s : string) : sample := mk_sample AnOther (JStr s) None.
