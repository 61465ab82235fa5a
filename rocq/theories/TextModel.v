(** Model of the text ingesters of live check (crates/weaver_live_check/src/
    text_file_ingester.rs, text_stdin_ingester.rs, sample_attribute.rs 63-92).
    Simplified: white space is ASCII white space.  The JSON parser is a parameter, and so is
    what counts as valid UTF-8.  Errors of the file system are not modelled. *)
From Coq Require Import String Ascii Bool Arith List.
From Verif Require Import Base Json SemTypes LiveModel LiveAdvisors Str CodeModel OtelModel.
Import ListNotations.
Local Open Scope string_scope.

Section Text.
  (* serde_json::from_str, as far as it succeeds *)
  Variable parse : string -> option json.
  (* std::str::from_utf8 succeeds *)
  Variable readable : string -> bool.

  (* sample_attribute.rs 66-91: TryFrom<&str>; the only error is an empty line *)
  Definition try_from (value : string) : option sattr :=
    let trimmed := trim_ws value in
    if is_empty trimmed then None
    else match split_once "="%char trimmed with
         | Some (name, value) =>
           let v := trim_ws value in
           let json_value := match parse v with Some j => j | None => JStr v end in
           Some {| sa_name := trim_ws name; sa_value := Some json_value; sa_type := infer_type json_value; sa_result := None |}
         | None => Some {| sa_name := trimmed; sa_value := None; sa_type := None; sa_result := None |}
         end.

  (* text_file_ingester.rs 28-43.  read_to_string fails unless the content is UTF-8, which
     is so when each line is, since a newline is never inside a character. *)
  Definition text_file (content : string) : res (list sample) :=
    if forallb readable (lines content) then
      Ok (flat_map (fun l => match try_from l with Some a => [SmpAttribute a] | None => [] end) (lines content))
    else Err "Failed to read file".

  (* text_stdin_ingester.rs 49-66: the iterator; its consumer stops at the first None
     (src/registry/live_check.rs 390).  A line that is not UTF-8 is an Err of
     io::Lines and is passed over. *)
  Fixpoint text_stdin_next (ls : list string) : list sample :=
    match ls with
    | [] => []
    | l :: r =>
      if readable l then
        match try_from l with
        | Some a => SmpAttribute a :: text_stdin_next r
        | None => []
        end
      else text_stdin_next r
    end.
  (* as above: text_stdin_ingester.rs 49-66 *)
  Definition text_stdin (content : string) : list sample := text_stdin_next (lines content).
End Text.
