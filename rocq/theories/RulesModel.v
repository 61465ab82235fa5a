(* The rules on findings as they are written in the configuration of live-check and their
   compilation.  Models crates/weaver_live_check/src/finding_modifier.rs 45-62 and 123-167,
   crates/weaver_config/src/live_check.rs 209-253 and the place in
   src/registry/live_check.rs 302-306 where they are read. *)
From Coq Require Import String Ascii Bool Arith List.
Import ListNotations.
From Verif Require Import Base SemTypes LiveModel.
Local Open Scope string_scope.
Local Open Scope list_scope.

(* live_check.rs (weaver_config) 209-233: FindingFilter *)
Record wfilter := mk_wfilter {
  wf_exclude : option (list string);
  wf_min_level : option level;
  wf_signal_type : option string;
  wf_exclude_samples : list string;
  wf_sample_names : list string }.

(* live_check.rs (weaver_config) 235-253: FindingLevelOverride *)
Record woverride := mk_woverride {
  wo_ids : option (list string);
  wo_level : level;
  wo_signal_type : option string;
  wo_sample_names : list string }.

Section Globs.
  (* globset: whether a text is a pattern, which names a pattern matches and whether a set
     of patterns can be built (its automaton may be too large).  A set matches what one of
     its patterns matches. *)
  Variable is_pattern : string -> bool.
  Variable matches : string -> string -> bool.
  Variable buildable : list string -> bool.

  (* used by compile_globset: 52-57: the first text that is no pattern *)
  Definition bad_pattern (patterns : list string) : option string :=
    find (fun p => negb (is_pattern p)) patterns.

  (* finding_modifier.rs 45-62: compile_globset; the texts of the errors of globset are
     left out *)
  Definition compile_globset (patterns : list string) : res (option (string -> bool)) :=
    match patterns with
    | [] => Ok None
    | _ =>
      match bad_pattern patterns with
      | Some p => Err ("Invalid sample name pattern '" ++ p ++ "'")
      | None =>
        if buildable patterns
        then Ok (Some (fun name => existsb (fun p => matches p name) patterns))
        else Err "Invalid sample name patterns"
      end
    end.

  (* finding_modifier.rs 137-145: one filter *)
  Definition compile_filter (w : wfilter) : res cfilter :=
    match compile_globset (wf_sample_names w) with
    | Err e => Err e
    | Ok names =>
      match compile_globset (wf_exclude_samples w) with
      | Err e => Err e
      | Ok samples =>
        Ok {| cf_signal_type := wf_signal_type w; cf_names := names;
              cf_exclude := wf_exclude w; cf_min_level := wf_min_level w;
              cf_exclude_samples := samples |}
      end
    end.

  (* finding_modifier.rs 147-154: one level override *)
  Definition compile_override (w : woverride) : res coverride :=
    match compile_globset (wo_sample_names w) with
    | Err e => Err e
    | Ok names =>
      Ok {| co_signal_type := wo_signal_type w; co_names := names;
            co_ids := wo_ids w; co_level := wo_level w |}
    end.

  (* used by from_rules: collect::<Result<Vec<_>, _>>() stops at the first error *)
  Fixpoint collect {A B : Type} (f : A -> res B) (l : list A) : res (list B) :=
    match l with
    | [] => Ok []
    | x :: r =>
      match f x with
      | Err e => Err e
      | Ok y => match collect f r with Err e => Err e | Ok ys => Ok (y :: ys) end
      end
    end.

  (* finding_modifier.rs 130-160: from_rules *)
  Definition from_rules (fs : list wfilter) (os : list woverride) : res (option modifier) :=
    match fs, os with
    | [], [] => Ok None
    | _, _ =>
      match collect compile_filter fs with
      | Err e => Err e
      | Ok cfs =>
        match collect compile_override os with
        | Err e => Err e
        | Ok cos => Ok (Some {| overrides := cos; filters := cfs |})
        end
      end
    end.

  (* src/registry/live_check.rs 305-306 and crates/weaver_live_check/src/live_checker.rs:
     what becomes of a finding of a sample: None when the command ends with an error before
     any sample is read *)
  Definition finding_after (fs : list wfilter) (os : list woverride) (f : finding) (r : sref)
    : option (option finding) :=
    match from_rules fs os with
    | Err _ => None
    | Ok None => Some (Some f)
    | Ok (Some m) => Some (modifier_apply m f r)
    end.
End Globs.
