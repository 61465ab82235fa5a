(* What a live check writes (src/registry/live_check.rs) and how its output is chosen
   (crates/weaver_forge/src/output_processor.rs).

   Model of the command from the first sample on: the resource given to signals, the loop over the samples, the
   streaming and the report mode, the answer to the admin client and the exit code.  Checking a sample, the
   statistics, the serializers and the templates are given ([checks], [printers]): they are the subject of other
   models (LiveModel, ForgeModel).  What runs next to it (OTLP, the emitter of logs) is ListenModel's. *)
From Coq Require Import String Ascii Bool Arith List.
From Verif Require Import Base Json.
Import ListNotations.
Open Scope string_scope.

(* ---------------------------------------------------------------- the output *)
(* output_processor.rs 56-64 *)
Inductive builtin := Json | Yaml | Jsonl.

(* output_processor.rs 66-76: from_name *)
Definition builtin_of (name : string) : option builtin :=
  if String.eqb name "json" then Some Json
  else if String.eqb name "yaml" then Some Yaml
  else if String.eqb name "jsonl" then Some Jsonl
  else None.

(* str::to_lowercase.  Simplified to ASCII letters. *)
(* used by lower: output_processor.rs 149-189, output_processor.rs 193-209, output_processor.rs 212-231 *)
Definition lower_char (c : ascii) : ascii :=
  let n := nat_of_ascii c in
  if Nat.leb 65 n && Nat.leb n 90 then ascii_of_nat (n + 32) else c.

(* used by choose_output: output_processor.rs 149-189, output_processor.rs 193-209, output_processor.rs 212-231 *)
Fixpoint lower (s : string) : string :=
  match s with
  | EmptyString => EmptyString
  | String c s' => String (lower_char c) (lower s')
  end.

(* output_processor.rs 113-126 OutputKind *)
Inductive output :=
| Builtin (f : builtin)
| Template (name : string)
| Mute.

(* where it goes: output_processor.rs 17-31, 36-42 (from_optional_dir) and live_check.rs 259-275 *)
Inductive dest := Stdout | Dir (path : string) | Http | Nowhere.

(* as above: output_processor.rs 17-31, output_processor.rs 36-42, live_check.rs 259-275 *)
Definition dest_of (option_output : option string) : dest :=
  match option_output with
  | None => Stdout
  | Some p => if String.eqb p "http" then Http else if String.eqb p "none" then Nowhere else Dir p
  end.

(* output_processor.rs 149-189 new, 193-209 has_template_dir, 212-231 load_template_kind: [dirs] tells which
   template directories exist, in the templates of the user or in the embedded ones; a directory that is not
   there is an error. *)
Definition choose_output (format : string) (dirs : string -> bool) (d : dest) : option output :=
  match d with
  | Nowhere => Some Mute
  | _ =>
    if String.eqb (lower format) "mute" then Some Mute
    else if dirs format then Some (Template format)
    else match builtin_of (lower format) with
         | Some f => Some (Builtin f)
         | None => None
         end
  end.

(* the serializers and the templates; a template may fail.  A template is taken to write one file. *)
(* used by generate: output_processor.rs 281-308, output_processor.rs 372-414, weaver_forge/src/lib.rs 746-780 *)
Record printers := mk_printers {
  ser : builtin -> json -> string;
  render : string -> json -> option string
}.

(* what can be seen of it: the standard output, the file in the directory (with what an earlier run left) and the
   answer to the client *)
(* used by print: output_processor.rs 281-308, output_processor.rs 372-414, weaver_forge/src/lib.rs 746-780 *)
Record seen := mk_seen {
  printed : string;
  file : option string;
  opened : bool;
  answer : option (string * string)
}.

(* used by generate: output_processor.rs 281-308, output_processor.rs 372-414, weaver_forge/src/lib.rs 746-780 *)
Definition nl : string := String "010"%char "".

(* used by generate: output_processor.rs 281-308, output_processor.rs 372-414, weaver_forge/src/lib.rs 746-780 *)
Definition print (s : seen) (text : string) : seen :=
  mk_seen (printed s ++ text) (file s) (opened s) (answer s).

(* used by generate: output_processor.rs 281-308, output_processor.rs 372-414, weaver_forge/src/lib.rs 746-780 *)
Definition to_file (s : seen) (text : string) : seen :=
  mk_seen (printed s) (Some text) true (answer s).

(* output_processor.rs 345-351 *)
Definition line_oriented (o : output) : bool :=
  match o with Builtin Jsonl => true | _ => false end.

(* output_processor.rs 328-341 *)
Definition file_output (o : output) (d : dest) : bool :=
  match o, d with
  | Mute, _ => false
  | _, Dir _ => true
  | _, _ => false
  end.

(* output_processor.rs 281-308 generate, 372-414 open_file and write_content, weaver_forge/src/lib.rs 746-780: the
   file of a built-in format is emptied once and then extended, the one of a template is written anew *)
Definition generate (P : printers) (o : output) (d : dest) (s : seen) (data : json) : option seen :=
  match o with
  | Mute => Some s
  | Builtin f =>
    let content := ser P f data in
    match d with
    | Dir _ =>
      let old := if opened s then match file s with Some t => t | None => "" end else "" in
      Some (to_file s (old ++ content ++ if line_oriented o then nl else ""))
    | _ => Some (print s (content ++ nl))
    end
  | Template n =>
    match render P n data with
    | None => None
    | Some content =>
      match d with
      | Dir _ => Some (to_file s content)
      | _ => Some (print s (content ++ nl))
      end
    end
  end.

(* used by generate_report: live_check.rs 208-229 *)
Fixpoint generate_all (P : printers) (o : output) (d : dest) (s : seen) (data : list json) : option seen :=
  match data with
  | [] => Some s
  | x :: data' => match generate P o d s x with
                  | Some s' => generate_all P o d s' data'
                  | None => None
                  end
  end.

(* output_processor.rs 323-329 *)
Definition generate_to_string (P : printers) (o : output) (data : json) : option string :=
  match o with
  | Mute => Some ""
  | Builtin f => Some (ser P f data)
  | Template n => render P n data
  end.

(* used by body_of: live_check.rs 430-461 *)
Fixpoint strings_of (P : printers) (o : output) (data : list json) : option (list string) :=
  match data with
  | [] => Some []
  | x :: data' =>
    match generate_to_string P o x with
    | None => None
    | Some t => match strings_of P o data' with Some ts => Some (t :: ts) | None => None end
    end
  end.

(* output_processor.rs 333-343 *)
Definition content_type (o : output) : string :=
  match o with
  | Builtin Json => "application/json"
  | Builtin Yaml => "application/yaml"
  | Builtin Jsonl => "application/jsonl"
  | Template _ | Mute => "text/plain"
  end.

(* ---------------------------------------------------------------- the command *)
(* a sample, as far as the command looks at it: a resource, a signal with a resource, or something else *)
(* used by sample: live_check.rs 390-415 *)
Inductive what := AResource | ASignal | AnOther.
(* used by checks: live_check.rs 390-415 *)
Record sample := mk_sample { s_what : what; s_doc : json; s_resource : option json }.

(* the checker with its statistics; [doc_report] is the whole report, without statistics if they are disabled *)
(* used by over_samples: live_check.rs 390-415 *)
Record checks (St : Type) := mk_checks {
  check : St -> sample -> option (sample * St);
  finalize : St -> St;
  fails : St -> string -> bool;
  doc_sample : sample -> json;
  doc_stats : St -> json;
  doc_disabled : json;
  doc_report : option St -> list sample -> json
}.
Arguments check {St}. Arguments finalize {St}. Arguments fails {St}. Arguments doc_sample {St}.
Arguments doc_stats {St}. Arguments doc_disabled {St}. Arguments doc_report {St}.

(* used by report_mode: live_check.rs 375-382 *)
Record config := mk_config {
  no_stats : bool;
  no_stream : bool;
  fail_on : option string
}.

(* live_check.rs 391-404: the resource seen last is attached to a signal, in place of the one it has *)
Definition attach (current : option json) (s : sample) : option json * sample :=
  match s_what s with
  | AResource => (Some (s_doc s), s)
  | ASignal => (current, mk_sample ASignal (s_doc s) current)
  | AnOther => (current, s)
  end.

(* live_check.rs 375-382 *)
Definition report_mode (c : config) (o : output) (d : dest) : bool :=
  match d with Http => true | _ => if file_output o d then true else no_stream c end.

(* the state of the loop: the checker, the current resource, the samples kept for the report, the output *)
(* used by over_samples: live_check.rs 390-415 *)
Record loop (St : Type) := mk_loop {
  l_state : St; l_current : option json; l_kept : list sample; l_seen : seen
}.
Arguments mk_loop {St}. Arguments l_state {St}. Arguments l_current {St}. Arguments l_kept {St}. Arguments l_seen {St}.

(* live_check.rs 390-415: the loop.  The first error ends the command: what was written by then stays. *)
Fixpoint over_samples {St} (K : checks St) (P : printers) (c : config) (o : output) (d : dest)
  (l : loop St) (samples : list sample) : loop St * bool :=
  match samples with
  | [] => (l, true)
  | x :: samples' =>
    let (current, x1) := attach (l_current l) x in
    match check K (l_state l) x1 with
    | None => (l, false)
    | Some (x2, st) =>
      if report_mode c o d then
        over_samples K P c o d (mk_loop st current (l_kept l ++ [x2])%list (l_seen l)) samples'
      else match generate P o d (l_seen l) (doc_sample K x2) with
           | None => (l, false)
           | Some s => over_samples K P c o d (mk_loop st current (l_kept l) s) samples'
           end
    end
  end.

(* live_check.rs 208-229 *)
Definition generate_report {St} (K : checks St) (P : printers) (c : config) (o : output) (d : dest)
  (s : seen) (samples : list sample) (st : St) : option seen :=
  if line_oriented o then
    generate_all P o d s (map (doc_sample K) samples ++ if no_stats c then [] else [doc_stats K st])%list
  else generate P o d s (doc_report K (if no_stats c then None else Some st) samples).

(* live_check.rs 430-461: the body of the answer *)
Definition body_of {St} (K : checks St) (P : printers) (c : config) (o : output)
  (samples : list sample) (st : St) : option string :=
  if line_oriented o then
    match strings_of P o (map (doc_sample K) samples ++ if no_stats c then [] else [doc_stats K st])%list with
    | Some lines => Some (join nl lines)
    | None => None
    end
  else generate_to_string P o (doc_report K (if no_stats c then None else Some st) samples).

(* used by live_check: live_check.rs 384-489 *)
Inductive ended :=
| Exit (code : nat) (s : seen)
| Error (s : seen).

(* live_check.rs 417-424 *)
Definition exit_code {St} (K : checks St) (c : config) (st : St) : nat :=
  match fail_on c with
  | None => 0
  | Some threshold => if no_stats c then 0 else if fails K st threshold then 1 else 0
  end.

(* live_check.rs 384-489: from the first sample to the end.  [waiting]: a client of the admin server waits for the
   report; [policy_errors]: the registry had errors by the policies. *)
Definition live_check {St} (K : checks St) (P : printers) (c : config) (o : output) (d : dest)
  (waiting policy_errors : bool) (st0 : St) (s0 : seen) (samples : list sample) : ended :=
  let (l, ok) := over_samples K P c o d (mk_loop st0 None [] s0) samples in
  if ok then
    let st := finalize K (l_state l) in
    let last :=
      match d with
      | Http =>
        if waiting then
          match body_of K P c o (l_kept l) st with
          | Some body => Some (mk_seen (printed (l_seen l)) (file (l_seen l)) (opened (l_seen l))
                                       (Some (content_type o, body)))
          | None => None
          end
        else generate_report K P c o d (l_seen l) (l_kept l) st
      | _ =>
        if report_mode c o d then generate_report K P c o d (l_seen l) (l_kept l) st
        else generate P o d (l_seen l) (if no_stats c then doc_disabled K else doc_stats K st)
      end in
    match last with
    | None => Error (l_seen l)
    | Some s => if policy_errors then Error s else Exit (exit_code K c st) s
    end
  else Error (l_seen l).
