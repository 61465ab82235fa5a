(* The OTLP receiver of a live check and the way it is stopped:
   src/registry/otlp/mod.rs 52-160 and 310-690, the end of
   src/registry/otlp/otlp_ingester.rs (252-275), and the part of
   src/registry/live_check.rs (316-340, 388-470) that drives it.

   The receiver runs in a thread of its own, on a single threaded runtime, and the
   command in the main thread.  What happens is a sequence of events; each event is
   one uninterrupted piece of work of one of the tasks, and [step] says what it does
   and when it may happen.  A schedule is a list of events.

   Simplifications.  The contents of an export and of the report are not kept: an
   export is a number given by the schedule, and so is a request to stop.  Time is
   not kept here: a timeout is an event that may happen whenever the program would
   let it (the monitor of inactivity is modelled with its clock at the end).  An
   exporter waits for the answer to its export.  The graceful shutdown of the admin
   server takes no new request once started and ends when no request is under way
   (axum, not in the repository). *)
From Coq Require Import String Bool Arith NArith Lia List.
Import ListNotations.

(* otlp/mod.rs 337: mpsc::channel(100) *)
Definition capacity : nat := 100.

(* otlp/mod.rs 272-295: the messages of the channel. *)
Inductive signal := Sigint | Sighup | AdminStop (r : nat) | Inactivity.
(* as above: otlp/mod.rs 272-295 *)
Inductive msg := Data (i : nat) | Stop (s : signal) | Broken.

(* The receiving end of the one-shot channel a request to stop waits on
   (otlp/mod.rs 108-113, 489-515). *)
Inductive rx := RxOpen | RxDropped | RxReport.

(* A POST to /stop being handled (otlp/mod.rs 484-527).  [h_plain]: no report is
   expected.  [h_sent]: the stop message has been sent, or cannot be any more. *)
Record handler := mk_handler {
  h_id : nat;
  h_plain : bool;
  h_sent : bool;
  h_rx : rx }.

(* The monitor of inactivity holds the only receiver of the watch channel
   (otlp/mod.rs 609-636). *)
Inductive monitor := MonOn | MonSending | MonGone.

(* Where the main thread is (live_check.rs 334-470).  [PExit ok]. *)
Inductive phase :=
| PStart | PRead | PEnd | PClosed | PFormat | PStdout | PWait | PExit (ok : bool).

(* used by init: otlp/mod.rs 337-341, otlp/mod.rs 86-97, otlp/mod.rs 590-600 *)
Record cfg := mk_cfg {
  http : bool;        (* --output http *)
  bound : bool;       (* the admin port could be bound *)
  timed : bool        (* an inactivity timeout was given *) }.

(* [waiting]: sends that wait for room, in the order in which they were made (the
   semaphore of a bounded tokio channel is fair); [buffer]: the messages in the
   channel, oldest first. *)
(* used by init: otlp/mod.rs 337-341, otlp/mod.rs 86-97, otlp/mod.rs 590-600 *)
Record st := mk_st {
  expect : bool;
  waiting : list msg;
  buffer : list msg;
  closed : bool;
  slot : option nat;
  handlers : list handler;
  trigger : bool;
  done : bool;
  mon : monitor;
  sigint_used : bool;
  sighup_used : bool;
  main : phase }.

(* What can be seen from outside. *)
(* used by obs: otlp/mod.rs 337-341, otlp/mod.rs 86-97, otlp/mod.rs 590-600 *)
Inductive answer := AReport | AOk | AFailed | ATimeout.
(* used by init_obs: otlp/mod.rs 337-341, otlp/mod.rs 86-97, otlp/mod.rs 590-600 *)
Inductive obs :=
| OAck (i : nat)                    (* an export is answered with success *)
| ORefuse (i : nat)                 (* an export is answered with an error *)
| OStopIn                           (* a stop, or an error, is in the channel *)
| OChecked (i : nat)                (* the samples of an export are checked *)
| OAnswer (r : nat) (a : answer)    (* a request to stop is answered *)
| OStdout                           (* the report goes to the standard output *)
| OExit (ok : bool).

(* each event is one step of a task or handler of src/registry/otlp/mod.rs 86-600 *)
Inductive ev :=
| EReady | EExport (i : nat) | EEnter | ETake | EAbort | EClose
| EStopReq (r : nat) | EReply (r : nat) | EFail (r : nat) | ETimeout (r : nat) | ELeave (r : nat)
| ESigint | ESighup | EInactive
| EDecide | EFormat | EFormatErr | EPrint | EDrained | EDeadline | EExit.

(* otlp/mod.rs 337-341, 86-97; the error of a port that cannot be bound is in the
   channel before the server starts (590-600, awaited at 376-383). *)
Definition init (c : cfg) : st :=
  mk_st false [] (if bound c then [] else [Broken]) false None [] false false MonOn false false
        PStart.
(* as above: otlp/mod.rs 337-341, otlp/mod.rs 86-97, otlp/mod.rs 590-600 *)
Definition init_obs (c : cfg) : list obs := if bound c then [] else [OStopIn].

(* as above: otlp/mod.rs 337-341, otlp/mod.rs 86-97, otlp/mod.rs 590-600 *)
Definition set_main (s : st) (p : phase) : st :=
  mk_st (expect s) (waiting s) (buffer s) (closed s) (slot s) (handlers s) (trigger s) (done s)
        (mon s) (sigint_used s) (sighup_used s) p.
(* as above: otlp/mod.rs 337-341, otlp/mod.rs 86-97, otlp/mod.rs 590-600 *)
Definition set_chan (s : st) (w b : list msg) : st :=
  mk_st (expect s) w b (closed s) (slot s) (handlers s) (trigger s) (done s)
        (mon s) (sigint_used s) (sighup_used s) (main s).
(* as above: otlp/mod.rs 337-341, otlp/mod.rs 86-97, otlp/mod.rs 590-600 *)
Definition set_hands (s : st) (hs : list handler) : st :=
  mk_st (expect s) (waiting s) (buffer s) (closed s) (slot s) hs (trigger s) (done s)
        (mon s) (sigint_used s) (sighup_used s) (main s).
(* as above: otlp/mod.rs 337-341, otlp/mod.rs 86-97, otlp/mod.rs 590-600 *)
Definition set_slot (s : st) (o : option nat) : st :=
  mk_st (expect s) (waiting s) (buffer s) (closed s) o (handlers s) (trigger s) (done s)
        (mon s) (sigint_used s) (sighup_used s) (main s).
(* as above: otlp/mod.rs 337-341, otlp/mod.rs 86-97, otlp/mod.rs 590-600 *)
Definition set_mon (s : st) (m : monitor) : st :=
  mk_st (expect s) (waiting s) (buffer s) (closed s) (slot s) (handlers s) (trigger s) (done s)
        m (sigint_used s) (sighup_used s) (main s).

(* otlp/mod.rs 129-138 [trigger_admin_shutdown]: the sender is taken, so that only
   the first call has an effect. *)
Definition set_trigger (s : st) : st :=
  mk_st (expect s) (waiting s) (buffer s) (closed s) (slot s) (handlers s) true (done s)
        (mon s) (sigint_used s) (sighup_used s) (main s).
(* otlp/mod.rs 141-146 [signal_admin_shutdown_complete] *)
Definition set_done (s : st) : st :=
  mk_st (expect s) (waiting s) (buffer s) (closed s) (slot s) (handlers s) (trigger s) true
        (mon s) (sigint_used s) (sighup_used s) (main s).
(* as above: otlp/mod.rs 141-146 *)
Definition use_sigint (s : st) : st :=
  mk_st (expect s) (waiting s) (buffer s) (closed s) (slot s) (handlers s) (trigger s) (done s)
        (mon s) true (sighup_used s) (main s).
(* as above: otlp/mod.rs 141-146 *)
Definition use_sighup (s : st) : st :=
  mk_st (expect s) (waiting s) (buffer s) (closed s) (slot s) (handlers s) (trigger s) (done s)
        (mon s) (sigint_used s) true (main s).

(* as above: otlp/mod.rs 141-146 *)
Definition is_exit (p : phase) : bool := match p with PExit _ => true | _ => false end.

(* as above: otlp/mod.rs 141-146 *)
Definition find_handler (hs : list handler) (r : nat) : option handler :=
  find (fun h => Nat.eqb (h_id h) r) hs.
(* as above: otlp/mod.rs 141-146 *)
Definition drop_handler (hs : list handler) (r : nat) : list handler :=
  filter (fun h => negb (Nat.eqb (h_id h) r)) hs.
(* as above: otlp/mod.rs 141-146 *)
Definition with_sent (h : handler) : handler := mk_handler (h_id h) (h_plain h) true (h_rx h).
(* as above: otlp/mod.rs 141-146 *)
Definition with_rx (x : rx) (h : handler) : handler := mk_handler (h_id h) (h_plain h) (h_sent h) x.
(* as above: otlp/mod.rs 141-146 *)
Definition on_handler (r : nat) (f : handler -> handler) (hs : list handler) : list handler :=
  map (fun h => if Nat.eqb (h_id h) r then f h else h) hs.

(* A message that got room in the channel: the send that made it goes on
   (otlp/mod.rs 651-660 for an export, 489-494 and 519-523 for a request to stop,
   623-627 for the monitor, which ends and drops its receiver). *)
Definition sent (s : st) (m : msg) : st * list obs :=
  match m with
  | Data i => (s, [OAck i])
  | Stop (AdminStop r) => (set_hands s (on_handler r with_sent (handlers s)), [OStopIn])
  | Stop Inactivity => (set_mon s MonGone, [OStopIn])
  | Stop _ => (s, [OStopIn])
  | Broken => (s, [OStopIn])
  end.

(* The receiver is dropped with the iterator (live_check.rs 390-413): every send that
   waits fails. *)
Fixpoint refused (w : list msg) : list obs :=
  match w with
  | [] => []
  | Data i :: w' => ORefuse i :: refused w'
  | _ :: w' => refused w'
  end.
(* as above: live_check.rs 390-413 *)
Definition close (s : st) : st :=
  mk_st (expect s) [] [] true (slot s) (map with_sent (handlers s)) (trigger s) (done s)
        (match mon s with MonSending => MonGone | m => m end)
        (sigint_used s) (sighup_used s) PClosed.

(* as above: live_check.rs 390-413 *)
Definition is_stop_of (r : nat) (m : msg) : bool :=
  match m with Stop (AdminStop r') => Nat.eqb r r' | _ => false end.

(* as above: live_check.rs 390-413 *)
Definition full_room (b : list msg) : bool := Nat.ltb (length b) capacity.

(* Making a send: otlp/mod.rs 651-660 and the others.  On a closed channel it fails. *)
Definition offer (s : st) (m : msg) : st :=
  if closed s then s else set_chan s (waiting s ++ [m]) (buffer s).

(* otlp/mod.rs 484-496: the request to stop, up to its first wait.  With a report
   expected [begin_report_wait] replaces what the slot holds, which drops the sender
   of the request that was waiting. *)
Definition begin_stop (s : st) (r : nat) : st :=
  if expect s then
    let hs := match slot s with
              | Some p => on_handler p (with_rx RxDropped) (handlers s)
              | None => handlers s
              end in
    set_slot (set_hands s (hs ++ [mk_handler r false (closed s) RxOpen])) (Some r)
  else set_hands s (handlers s ++ [mk_handler r true (closed s) RxOpen]).

(* otlp/mod.rs 121-126 [deliver_report] *)
Definition deliver (s : st) : st :=
  match slot s with
  | Some r => set_slot (set_hands s (on_handler r (with_rx RxReport) (handlers s))) None
  | None => s
  end.

(* otlp/mod.rs 500-515, 525: the answer, after which the shutdown is triggered. *)
Definition answered (s : st) (r : nat) (a : answer) : st * list obs :=
  (set_trigger (set_hands s (drop_handler (handlers s) r)), [OAnswer r a]).

(* as above: otlp/mod.rs 500-515 *)
Definition step (c : cfg) (s : st) (e : ev) : option (st * list obs) :=
  if is_exit (main s) then None else
  match e with
  (* live_check.rs 334-340 *)
  | EReady =>
      match main s with
      | PStart => Some (mk_st (http c) (waiting s) (buffer s) (closed s) (slot s) (handlers s)
                              (trigger s) (done s) (mon s) (sigint_used s) (sighup_used s) PRead, [])
      | _ => None
      end
  (* otlp/mod.rs 678-745: the time of the activity is sent first, which fails when the
     monitor has ended; then the request is forwarded. *)
  | EExport i =>
      match mon s with
      | MonGone => Some (s, [ORefuse i])
      | _ => if closed s then Some (s, [ORefuse i]) else Some (offer s (Data i), [])
      end
  | EEnter =>
      match waiting s with
      | m :: w => if full_room (buffer s) then Some (sent (set_chan s w (buffer s ++ [m])) m)
                  else None
      | [] => None
      end
  (* otlp_ingester.rs 262-275 and live_check.rs 390-413; a stop and an error end the
     iteration alike (252-253). *)
  | ETake =>
      match main s, buffer s with
      | PRead, Data i :: b => Some (set_chan s (waiting s) b, [OChecked i])
      | PRead, _ :: b => Some (set_main (set_chan s (waiting s) b) PEnd, [])
      | _, _ => None
      end
  (* live_check.rs 403, 410: an error of a check or of the output ends the command *)
  | EAbort => match main s with PRead => Some (set_main s (PExit false), [OExit false]) | _ => None end
  | EClose => match main s with PEnd => Some (close s, refused (waiting s)) | _ => None end
  | EStopReq r =>
      if bound c && negb (trigger s) then
        match find_handler (handlers s) r with
        | Some _ => None
        | None => Some (offer (begin_stop s r) (Stop (AdminStop r)), [])
        end
      else None
  | EReply r =>
      match find_handler (handlers s) r with
      | Some h =>
          if h_sent h then
            if h_plain h then Some (answered s r AOk)
            else match h_rx h with RxReport => Some (answered s r AReport) | _ => None end
          else None
      | None => None
      end
  | EFail r =>
      match find_handler (handlers s) r with
      | Some h =>
          if h_sent h && negb (h_plain h) then
            match h_rx h with RxDropped => Some (answered s r AFailed) | _ => None end
          else None
      | None => None
      end
  | ETimeout r =>
      match find_handler (handlers s) r with
      | Some h =>
          if h_sent h && negb (h_plain h) then
            match h_rx h with RxOpen => Some (answered s r ATimeout) | _ => None end
          else None
      | None => None
      end
  (* The client closes its connection: the handler is dropped where it stands. *)
  | ELeave r =>
      match find_handler (handlers s) r with
      | Some _ =>
          Some (set_chan (set_hands s (drop_handler (handlers s) r))
                         (filter (fun m => negb (is_stop_of r m)) (waiting s)) (buffer s), [])
      | None => None
      end
  (* otlp/mod.rs 433-465: each of the two tasks sends one message. *)
  | ESigint => if sigint_used s then None else Some (offer (use_sigint s) (Stop Sigint), [])
  | ESighup => if sighup_used s then None else Some (offer (use_sighup s) (Stop Sighup), [])
  | EInactive =>
      if timed c then
        match mon s with
        | MonOn => Some (if closed s then set_mon s MonGone
                         else offer (set_mon s MonSending) (Stop Inactivity), [])
        | _ => None
        end
      else None
  (* live_check.rs 423-430, 469-480 *)
  | EDecide =>
      match main s with
      | PClosed =>
          Some (set_main s (if http c then match slot s with Some _ => PFormat | None => PStdout end
                            else PStdout), [])
      | _ => None
      end
  (* live_check.rs 431-466 *)
  | EFormat => match main s with PFormat => Some (set_main (deliver s) PWait, []) | _ => None end
  | EFormatErr =>
      match main s with
      | PFormat | PStdout => Some (set_main s (PExit false), [OExit false])
      | _ => None
      end
  | EPrint =>
      match main s with
      | PStdout => Some (set_main s (PExit true), [OStdout; OExit true])
      | _ => None
      end
  (* otlp/mod.rs 556-588 *)
  | EDrained =>
      if trigger s && negb (done s) then
        match handlers s with [] => Some (set_done s, []) | _ => None end
      else None
  | EDeadline => if trigger s && negb (done s) then Some (set_done s, []) else None
  (* otlp/mod.rs 151-156 [wait_for_admin_shutdown] *)
  | EExit =>
      match main s with
      | PWait => if done s then Some (set_main s (PExit true), [OExit true]) else None
      | _ => None
      end
  end.

(* as above: otlp/mod.rs 151-156 *)
Fixpoint steps (c : cfg) (s : st) (es : list ev) : option (st * list obs) :=
  match es with
  | [] => Some (s, [])
  | e :: r =>
      match step c s e with
      | Some (s1, o1) =>
          match steps c s1 r with
          | Some (s2, o2) => Some (s2, o1 ++ o2)
          | None => None
          end
      | None => None
      end
  end.

(* A schedule from the start: None when an event of it could not happen. *)
(* no counterpart: a schedule of src/registry/otlp/mod.rs 86-600 *)
Definition run (c : cfg) (es : list ev) : option (st * list obs) :=
  match steps c (init c) es with
  | Some (s, o) => Some (s, init_obs c ++ o)
  | None => None
  end.

(* ---------- the monitor of inactivity, with its clock ---------- *)

(* otlp/mod.rs 616-635.  [start] is the time at which a sleep begins, [late k] how much
   later than asked the k-th sleep ends, [last t] the time of the last activity known at
   time t.  The result is the time at which the stop is sent, if that is within [fuel]
   turns of the loop. *)
Fixpoint monitor_loop (fuel : nat) (timeout : nat) (late : nat -> nat) (last : nat -> nat)
  (k start : nat) : option nat :=
  match fuel with
  | O => None
  | S f =>
      let now := start + timeout + late k in
      if Nat.leb timeout (now - last now) then Some now
      else monitor_loop f timeout late last (S k) now
  end.

(* The last activity at time t when the exports arrive at the times [acts] and the
   watch channel is created at time 0 (otlp/mod.rs 340, 680). *)
Definition last_activity (acts : list nat) (t : nat) : nat :=
  fold_left (fun m a => if Nat.leb a t then Nat.max m a else m) acts 0.
