(* What is asked of the receiver of a live check and of the way it is stopped, in terms
   of what can be seen from outside. *)
From Coq Require Import String Bool Arith NArith Lia List.
From Verif Require Import ListenModel.
Import ListNotations.

(* The exports answered with success, in the order of the answers, up to the first stop. *)
Fixpoint acked_before_stop (o : list obs) : list nat :=
  match o with
  | [] => []
  | OStopIn :: _ => []
  | OAck i :: r => i :: acked_before_stop r
  | _ :: r => acked_before_stop r
  end.

(* The exports whose samples are checked, in order. *)
Fixpoint checked (o : list obs) : list nat :=
  match o with
  | [] => []
  | OChecked i :: r => i :: checked r
  | _ :: r => checked r
  end.

(* How many times the report is given to somebody. *)
Fixpoint reports (o : list obs) : nat :=
  match o with
  | [] => 0
  | OStdout :: r => S (reports r)
  | OAnswer _ AReport :: r => S (reports r)
  | _ :: r => reports r
  end.

(* Nobody who asked to stop leaves, and no wait is cut short. *)
Definition patient (es : list ev) : Prop :=
  (forall r, ~ In (ELeave r) es) /\ (forall r, ~ In (ETimeout r) es) /\ ~ In EDeadline es.
Definition nobody_leaves (es : list ev) : Prop := forall r, ~ In (ELeave r) es.
Definition no_stop_request (es : list ev) : Prop := forall r, ~ In (EStopReq r) es.

(* Configurations and schedules used below. *)
Definition on_http : cfg := mk_cfg true true true.
Definition on_stdout : cfg := mk_cfg false true false.
Definition unbound : cfg := mk_cfg false false false.

(* Two exports, a request to stop that is given the report. *)
Definition good_run : list ev :=
  [EReady; EExport 1; EEnter; EExport 2; EEnter; ETake; EStopReq 7; EEnter; ETake; ETake;
   EClose; EDecide; EFormat; EReply 7; EDrained; EExit].
(* An export comes in behind the stop. *)
Definition behind_run : list ev :=
  [EReady; EExport 1; EEnter; ESigint; EEnter; EExport 2; EEnter; ETake; ETake; EClose;
   EDecide; EPrint].
(* Checking what is left takes longer than the request to stop waits. *)
Definition slow_run : list ev :=
  [EReady; EExport 1; EEnter; EStopReq 7; EEnter; ETimeout 7; EDrained; ETake; ETake; EClose;
   EDecide; EFormat; EExit].
(* The client does not wait. *)
Definition left_run : list ev :=
  [EReady; EExport 1; EEnter; EStopReq 7; EEnter; ELeave 7; ETake; ETake; EClose; EDecide; EFormat].
(* Two requests to stop. *)
Definition twice_run : list ev :=
  [EReady; EExport 1; EEnter; EStopReq 7; EEnter; EStopReq 8; EFail 7; EEnter; ETake; ETake;
   EClose; EDecide; EFormat; EReply 8; EDrained; EExit].
(* The report cannot be formatted. *)
Definition unformatted_run : list ev :=
  [EReady; EExport 1; EEnter; EStopReq 7; EEnter; ETake; ETake; EClose; EDecide; EFormatErr].
(* A request to stop before the command has said that it wants to give the report back. *)
Definition early_run : list ev :=
  [EStopReq 7; EEnter; EReply 7; EReady; ETake; EClose; EDecide; EPrint].
(* The command ends before the request to stop is answered. *)
Definition unanswered_run : list ev :=
  [EReady; EExport 1; EEnter; EStopReq 7; EEnter; ETake; ETake; EClose; EDecide; EPrint].
(* The admin port is taken. *)
Definition unbound_run : list ev :=
  [EExport 1; EEnter; EReady; ETake; EClose; EDecide; EPrint].
