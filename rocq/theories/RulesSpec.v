(* What the rules on findings say, read as they are written. *)
From Coq Require Import String Ascii Bool Arith List.
Import ListNotations.
From Verif Require Import Base SemTypes LiveModel LiveSpec RulesModel.
Local Open Scope string_scope.
Local Open Scope list_scope.

Section Says.
  Variable is_pattern : string -> bool.
  Variable matches : string -> string -> bool.
  Variable buildable : list string -> bool.

  (* a list of patterns that can be used *)
  Definition usable (patterns : list string) : Prop :=
    patterns = [] \/ (Forall (fun p => is_pattern p = true) patterns /\ buildable patterns = true).

  (* the sample has a name one of the patterns matches *)
  Definition named (patterns : list string) (r : sref) : Prop :=
    exists name p, sample_name r = Some name /\ In p patterns /\ matches p name = true.

  (* a rule is about a finding of a sample: of its signal type, if it gives one, and of
     samples with such names, if it lists any *)
  Definition about (signal_type : option string) (names : list string) (f : finding) (r : sref) : Prop :=
    (forall s, signal_type = Some s -> f_signal_type f = Some s) /\
    (names = [] \/ named names r).

  Definition relevels (o : woverride) (f : finding) (r : sref) : Prop :=
    about (wo_signal_type o) (wo_sample_names o) f r /\
    (forall ids, wo_ids o = Some ids -> In (f_id f) ids).

  Definition drops (w : wfilter) (f : finding) (r : sref) : Prop :=
    about (wf_signal_type w) (wf_sample_names w) f r /\
    ((exists ids, wf_exclude w = Some ids /\ In (f_id f) ids) \/
     (exists m, wf_min_level w = Some m /\ level_rank (f_level f) < level_rank m) \/
     named (wf_exclude_samples w) r).

  (* the level a finding gets: that of the first override about it, else its own *)
  Definition new_level (os : list woverride) (f : finding) (r : sref) (l : level) : Prop :=
    (exists before o after, os = before ++ o :: after /\ relevels o f r /\ wo_level o = l /\
       (forall x, In x before -> ~ relevels x f r)) \/
    ((forall x, In x os -> ~ relevels x f r) /\ l = f_level f).
End Says.
