(* The rendering of one template and the generation of one text.
   Models crates/weaver_forge/src/lib.rs 86-122 (the template object), 329-404
   (generate_to_string), 670-742 (render_template) and 744-773 (evaluate_template).
   The Jinja engine is a parameter: what a template does is the list of the calls it makes on
   the template object, and its text or its error. *)
From Coq Require Import String Ascii Bool Arith List.
Import ListNotations.
From Verif Require Import Base Json SemTypes Str ForgeModel.
Local Open Scope string_scope.

(* str::strip_suffix *)
(* used by trim_end_str: lib.rs 707 *)
Fixpoint strip_suffix (suf s : string) : option string :=
  if String.eqb s suf then Some ""
  else match s with
       | EmptyString => None
       | String c r => match strip_suffix suf r with Some t => Some (String c t) | None => None end
       end.

(* str::trim_end_matches of a text: as often as it ends so *)
(* lib.rs 707 *)
Fixpoint trim_end_str (fuel : nat) (suf s : string) : string :=
  match fuel with
  | 0 => s
  | S k => match strip_suffix suf s with Some r => trim_end_str k suf r | None => s end
  end.

(* lib.rs 700-709: the name of a file when none is configured.  Simplified: the path of a
   template does not end in a slash, so its file name is what comes after the last one. *)
Definition default_name (file : string) : string :=
  let b := last (split_char "/"%char file) "" in
  trim_end_str (String.length b) ".j2" b.

(* used by call_method: lib.rs 100-122: a call of a method of the template object *)
Record call := mk_call { ca_method : string; ca_args : list json }.

(* lib.rs 100-122: TemplateObject::call_method: the new file name *)
Definition call_method (c : call) : res string :=
  if String.eqb (ca_method c) "set_file_name" then
    match ca_args c with
    | [JStr n] => Ok n
    | _ => Err "invalid arguments"
    end
  else Err "UnknownMethod".

(* lib.rs 711-721 and 735: the calls of a template, one after the other, on the shared name;
   the first that fails ends the rendering *)
Fixpoint run_calls (name : string) (calls : list call) : res string :=
  match calls with
  | [] => Ok name
  | c :: r => match call_method c with Err e => Err e | Ok n => run_calls n r end
  end.

Section Render.
  (* what is rendered as a text of its own: context, parameters, escaping, text *)
  Variable render_str : json -> params -> string -> string -> res string.
  (* the loader of templates *)
  Variable load : string -> option string.
  (* what a template does: its calls in order, and its text or its error *)
  Variable run : json -> params -> string -> string -> list call * res string.
  (* as for generation: ForgeModel *)
  Variable jq : json -> string -> params -> res (list json).
  Variable matches : string -> string -> bool.

  (* lib.rs 673-742: render_template: the text and the name *)
  Definition render_template (ctx : json) (p : params) (file : string) (cfg : option string) (escape : string)
    : res (string * string) :=
    let path := match cfg with
                | Some c => match render_str ctx p escape c with Ok s => Ok s | Err _ => Err "InvalidFilePath" end
                | None => Ok (default_name file)
                end in
    match path with
    | Err e => Err e
    | Ok start =>
      match load file with
      | None => Err "InvalidTemplateFile"
      | Some src =>
        let (calls, outcome) := run ctx p escape src in
        match run_calls start calls with
        | Err _ => Err "TemplateEvaluationFailed"
        | Ok name =>
          match outcome with
          | Err _ => Err "TemplateEvaluationFailed"
          | Ok text => Ok (text, name)
          end
        end
      end
    end.

  (* lib.rs 355-398: the texts of the values of one template; the first error ends it *)
  Fixpoint render_items (t : tconf) (file : string) (p : params) (values : list json) : res (list string) :=
    match values with
    | [] => Ok []
    | v :: r =>
      match render_template v p file None (tc_escape t) with
      | Err e => Err e
      | Ok (text, _) =>
        match render_items t file p r with Err e => Err e | Ok l => Ok (text :: l) end
      end
    end.

  (* lib.rs 343-399: one template configuration and one file.  The parameters are never
     absent (lib.rs 223-247). *)
  Definition render_config (ctx : json) (file : string) (t : tconf) : res (list string) :=
    match init_params (opt_get (tc_params t) []) with
    | Err e => Err e
    | Ok p =>
      match evaluate_when jq t ctx p with
      | Err e => Err e
      | Ok false => Ok []
      | Ok true =>
        match execute_jq jq ctx (tc_filter t) p with
        | Err e => Err e
        | Ok v =>
          match tc_mode t with
          | Single =>
            match v with
            | JNull => Ok []
            | JArr [] => Ok []
            | _ => render_items t file p [v]
            end
          | Each =>
            match v with
            | JArr values => render_items t file p values
            | _ => render_items t file p [v]
            end
          end
        end
      end
    end.

  (* lib.rs 343: the configurations that match the file, in order *)
  Fixpoint render_configs (ctx : json) (file : string) (ts : list tconf) : res (list string) :=
    match ts with
    | [] => Ok []
    | t :: r =>
      if matches (tc_template t) file then
        match render_config ctx file t with
        | Err e => Err e
        | Ok l => match render_configs ctx file r with Err e => Err e | Ok k => Ok (app l k) end
        end
      else render_configs ctx file r
    end.

  (* lib.rs 342: the files, in order *)
  Fixpoint render_files (ctx : json) (files : list string) (ts : list tconf) : res (list string) :=
    match files with
    | [] => Ok []
    | f :: r =>
      match render_configs ctx f ts with
      | Err e => Err e
      | Ok l => match render_files ctx r ts with Err e => Err e | Ok k => Ok (app l k) end
      end
    end.

  (* lib.rs 333-404: generate_to_string *)
  Definition generate_to_string (ctx : json) (files : list string) (ts : list tconf) : res string :=
    match render_files ctx files ts with
    | Err e => Err e
    | Ok l => Ok (join "" l)
    end.
End Render.

(* used by deliver: lib.rs 77-85: OutputDirective *)
Inductive directive := DStdout | DStderr | DFile.

(* used by deliver: lib.rs 744-773: what a run can change: files, standard output and
   standard error (without the log) *)
Record outputs := mk_outputs { ou_files : fs; ou_stdout : string; ou_stderr : string }.

(* lib.rs 744-773: evaluate_template after the rendering: println adds a line break *)
Definition deliver (d : directive) (out_dir : string) (rendered : string * string) (o : outputs) : outputs :=
  match d with
  | DStdout => mk_outputs (ou_files o) (ou_stdout o ++ fst rendered ++ String (ascii_of_nat 10) "") (ou_stderr o)
  | DStderr => mk_outputs (ou_files o) (ou_stdout o) (ou_stderr o ++ fst rendered ++ String (ascii_of_nat 10) "")
  | DFile => mk_outputs (write (ou_files o) (push out_dir (snd rendered), fst rendered)) (ou_stdout o) (ou_stderr o)
  end.

(* lib.rs 418-457 with 746-773: the renderings as they come; those that fail deliver nothing *)
Definition deliver_all (d : directive) (out_dir : string) (rs : list (res (string * string))) (o : outputs) : outputs :=
  fold_left (fun o r => match r with Ok x => deliver d out_dir x o | Err _ => o end) rs o.
