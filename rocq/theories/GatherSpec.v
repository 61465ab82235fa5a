(* What is said of gathered errors, without the functions of the model. *)
From Coq Require Import String DecimalString Bool Arith List.
From Verif Require Import ResultModel GatherModel.
Import ListNotations.
Open Scope list_scope.

(* The elementary errors of an error, in order, however they were gathered and wrapped. *)
Fixpoint elementary (e : err) : list err :=
  match e with
  | Single _ _ _ _ => [e]
  | Many _ l => flat_map elementary l
  | Wrap _ e' => elementary e'
  end.

(* An error is a failure unless it was declared a warning or an advice. *)
Definition failure (e : err) : Prop :=
  match e with Single _ (Some SevWarning) _ _ | Single _ (Some SevAdvice) _ _ => False | _ => True end.

Inductive no_collection : err -> Prop :=
| nc_single : forall k s t i, no_collection (Single k s t i)
| nc_wrap : forall k e, no_collection e -> no_collection (Wrap k e).

(* No crate but the one for Markdown has wrapped a collection of errors of another crate. *)
Inductive no_wrapped_collection : err -> Prop :=
| nw_single : forall k s t i, no_wrapped_collection (Single k s t i)
| nw_many : forall k l, Forall no_wrapped_collection l -> no_wrapped_collection (Many k l)
| nw_gen : forall e, no_wrapped_collection e -> no_wrapped_collection (Wrap KGen e)
| nw_wrap : forall k e, no_collection e -> no_wrapped_collection (Wrap k e).

(* All wrappers keep the severity: those of the resolver, and that of Markdown, which is taken off. *)
Inductive keeps_severity : err -> Prop :=
| ks_single : forall k s t i, keeps_severity (Single k s t i)
| ks_many : forall k l, Forall keeps_severity l -> keeps_severity (Many k l)
| ks_gen : forall e, keeps_severity e -> keeps_severity (Wrap KGen e)
| ks_wrap : forall s k t i, keeps_severity (Wrap KResolver (Single k s t i)).

(* A collection as handle_errors makes them: none inside. *)
Definition is_collection (e : err) : bool := match e with Many _ _ => true | _ => false end.
Definition flat (e : err) : Prop :=
  match e with Many _ l => Forall (fun x => is_collection x = false) l | _ => True end.

(* Two errors are similar when they have the same key: the identity of the failure for a template,
   the whole text for the others. *)
Definition key_of (show : err -> string) (e : err) : string :=
  match e with Single _ _ _ (Some id) => id | _ => show e end.
Definition text_of (show : err -> string) (e : err) : string :=
  match e with Single _ _ text (Some _) => text | _ => show e end.
Definition similar (show : err -> string) (a b : err) : bool := String.eqb (key_of show a) (key_of show b).

Definition decimal (n : nat) : string := NilEmpty.string_of_uint (Nat.to_uint n).
(* What is printed of an error with [n] similar ones after it. *)
Definition line (text : string) (n : nat) : string :=
  match n with
  | 0 => text
  | 1 => text ++ "

Found 1 similar error"
  | _ => text ++ "

Found " ++ decimal n ++ " similar errors"
  end%string.
(* The report of a list of errors: of each the first of its kind, with the number of the others. *)
Inductive report (show : err -> string) : list err -> list string -> Prop :=
| rp_nil : report show [] []
| rp_cons : forall e l out,
    report show (filter (fun x => negb (similar show e x)) l) out ->
    report show (e :: l) (line (text_of show e) (length (filter (similar show e) l)) :: out).

(* The causes of an error of the template engine, outermost first. *)
Inductive caused : jinja_error -> list string -> string -> Prop :=
| ca_last : forall p d, caused (JError p d None) [] d
| ca_more : forall p d s ps last, caused s ps last -> caused (JError p d (Some s)) (p :: ps) last.
