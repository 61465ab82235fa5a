(* Vocabulary for the properties of the layered configuration. *)
From Coq Require Import String Ascii Bool Arith List.
Import ListNotations.
From Verif Require Import Base SemTypes VdirModel UrlModel ConfigModel.
Local Open Scope string_scope.
Local Open Scope list_scope.

(* The rule a user relies on: command line, else file, else default. *)
Definition layered {A} (cli file : option A) (default : A) : A :=
  match cli with
  | Some v => v
  | None => match file with Some v => v | None => default end
  end.

(* the value a file gives to a setting, when there is a file *)
Definition from_file {raw A} (cfg : option (weaver_config raw)) (get : weaver_config raw -> option A)
  : option A :=
  match cfg with Some wc => get wc | None => None end.

(* a registry or policy path the parser accepts *)
Definition valid_path (s : string) : Prop := parse_vdir s <> None.

(* every value of the command's section that the command knows has the right type *)
Definition well_typed_section {val raw} (cs : command_spec val raw) (section : list (string * raw)) : Prop :=
  forall f r, In f (map fst (cs_default cs)) -> slookup f section = Some r ->
    cs_decode cs f r <> None.

(* what the file says about one setting of a command *)
Definition file_setting {val raw} (cs : command_spec val raw) (cfg : option (weaver_config raw)) (f : string)
  : option val :=
  match cfg with
  | None => None
  | Some wc =>
    match slookup (cs_section cs) (wc_commands wc) with
    | None => None
    | Some section => match slookup f section with
                      | Some r => cs_decode cs f r
                      | None => None
                      end
    end
  end.

(* [d] is [cwd] or one of the directories above it *)
Definition above (d cwd : list string) : Prop := exists inner, cwd = inner ++ d.
