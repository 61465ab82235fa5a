(* What the user of a command relies on: its exit code tells whether something is wrong, its messages are shown, and a
   registry with errors is not turned into output. *)
From Coq Require Import String Bool Arith List.
Import ListNotations.
From Verif Require Import Base Json SemTypes ResultModel PolicyModel PolicySpec CommandModel.
Local Open Scope string_scope.

(* a message that is wrong, not a warning: any in future mode *)
Definition serious (future : bool) (m : werr) : Prop :=
  future = true
  \/ match m with
     | WOther _ (Some SevWarning) | WOther _ (Some SevAdvice) | V2FlagMissing | BeforeResolutionUnsupported => False
     | _ => True
     end.
Definition all_fine (future : bool) (ms : list werr) : Prop := forall m, In m ms -> ~ serious future m.

(* the messages themselves, and the exit code of the process *)
Definition shown (r : ran) : list werr := map dm_error (printed r).
Definition logged (r : ran) : list werr := map dm_error (ran_logged r).
Definition code (r : ran) : nat := exit_code (ran_result r).

(* a registry that can be used under the settings, and what its policies are *)
Definition good {R} (c : settings) (g : registry) (nfes : list werr) (b : bundle) (v : option json) (pe : option (engine R)) : Prop :=
  rg_open g = ROk nfes /\ usable c g b v /\ prepare_policy_engine c g = ROk pe.

(* the commands that ask the policies about the resolved registry *)
Definition asks (cmd : command) : Prop := cmd = Resolve \/ cmd = Package \/ cmd = LiveCheck.
(* the messages of a registry under a command other than diff *)
Definition gathered {R} (cmd : command) (c : settings) (g : registry) (nfes : list werr) (b : bundle) (v : option json)
    (pe : option (engine R)) (ms : list werr) : Prop :=
  exists load after, loading_messages c g b pe load
    /\ ms = app nfes (app load after)
    /\ ((asks cmd /\ stage_messages pe AfterResolution (rg_name g) v [] after) \/ (~ asks cmd /\ after = [])).

(* the own steps of a command go well *)
Definition ready (o : own) : Prop := own_first o = ROk tt /\ own_opened o = ROk tt /\ own_next o = ROk tt.
(* the settings a command loads the registry with *)
Definition settings_of (cmd : command) (c : settings) : settings :=
  match cmd with Search _ => mk_settings (st_v2 c) true [] | _ => c end.
(* commands for which the registry as used is not the right one: these do not run *)
Definition applies (future : bool) (cmd : command) (c : settings) (b : bundle) : Prop :=
  match cmd with
  | Resolve => future = false
  | Package => st_v2 c = true
  | Search how => b = BundleV1 /\ how <> Neither
  | _ => True
  end.
(* the code the work ends with, where a command hands it on *)
Definition work_ends (cmd : command) (o : own) (v : option json) (k : nat) : Prop :=
  match cmd with
  | Markdown _ files update => k = 0 /\ forall f, In f files -> update v f = ROk tt
  | Search Pattern => k = 0
  | LiveCheck => own_work o v = ROk k
  | _ => k = 0 /\ exists n, own_work o v = ROk n
  end.
(* the commands that show what they gathered *)
Definition shows (cmd : command) : Prop :=
  cmd = Resolve \/ cmd = Emit \/ cmd = Package \/ (exists d f u, cmd = Markdown d f u) \/ (exists h, cmd = Search h) \/ cmd = LiveCheck.
(* the commands that come to their work in spite of an error *)
Definition works_anyway (future : bool) (cmd : command) : Prop :=
  match cmd with
  | Stats | Diff _ | Package => False
  | Markdown _ _ _ => future = false
  | _ => True
  end.

(* ---------- samples ---------- *)
Definition calm (nfes : list werr) (b : bundle) : registry :=
  mk_registry "r" (ROk nfes) "/r" None (WOk LoadedV1) (WOk b) (ROk (Some JNull)) (ROk tt) (WOk (Some JNull)).
Definition bare : settings := mk_settings false true [].
Definition bare2 : settings := mk_settings true true [].
Definition easy : own := mk_own (ROk tt) (ROk tt) (ROk tt) (WOk (Some JNull)) (fun _ => ROk 0).
Definition hint : werr := WOther "hint" (Some SevWarning).
Definition wrong : werr := WOther "wrong" None.
