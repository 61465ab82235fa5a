(* Vocabulary for registry paths, archives and credentials, independent of the
   matcher and of the resolver. *)
From Coq Require Import String Ascii Bool Arith List.
Import ListNotations.
From Verif Require Import Base VdirModel.
Local Open Scope string_scope.
Local Open Scope list_scope.

(* characters of a string *)
Fixpoint has_char (c : ascii) (s : string) : Prop :=
  match s with
  | EmptyString => False
  | String d s' => d = c \/ has_char c s'
  end.

(* the string after its first character *)
Definition after_first (s : string) : string :=
  match s with EmptyString => EmptyString | String _ s' => s' end.

(* how a user writes source, refspec and sub-folder in one string *)
Definition written (source : string) (refspec sub_folder : option string) : string :=
  (source
   ++ match refspec with Some r => "@" ++ r | None => "" end
   ++ match sub_folder with Some f => "[" ++ f ++ "]" | None => "" end)%string.

(* the parts are unambiguous: not empty, on one line, and the separators do not
   occur where they would be read as separators *)
Definition plain_source (s : string) : Prop :=
  s <> "" /\ ~ has_char newline s /\
  ~ has_char "@"%char (after_first s) /\ ~ has_char "["%char (after_first s).
Definition plain_refspec (r : string) : Prop :=
  r <> "" /\ ~ has_char newline r /\ ~ has_char "["%char r.
Definition plain_sub_folder (f : string) : Prop :=
  f <> "" /\ ~ has_char newline f.
Definition plain_opt (P : string -> Prop) (o : option string) : Prop :=
  match o with Some s => P s | None => True end.

(* the location, refspec and sub-folder a parsed path makes weaver use *)
Definition used (v : vdir_path) : string * option string * option string :=
  match v with
  | LocalFolder p => (p, None, None)
  | LocalArchive p sub => (p, None, sub)
  | RemoteArchive u sub => (u, None, sub)
  | GitRepo u ref sub => (u, ref, sub)
  | RemoteFile u => (u, None, None)
  end.

(* Where a path leads when followed from a directory: [resolve_in up cs] is the
   final position below the directory as a stack of names, None as soon as the
   path leaves the directory. *)
Fixpoint resolve_in (stack : list string) (cs : list component) : option (list string) :=
  match cs with
  | [] => Some stack
  | RootDir :: _ => None
  | CurDir :: cs' => resolve_in stack cs'
  | ParentDir :: cs' => match stack with [] => None | _ :: st => resolve_in st cs' end
  | Normal n :: cs' => resolve_in (n :: stack) cs'
  end.

(* following the path stays inside the directory all along *)
Definition stays_inside (cs : list component) : Prop := exists st, resolve_in [] cs = Some st.

(* a rule applies to a URL *)
Definition applies (r : auth_rule) (url : string) : Prop :=
  exists rest, url = (ar_prefix r ++ rest)%string.

(* ------------------------------------------------------------------ *)
(* Histories of token requests: the outside world may change arbitrarily between
   requests, time does not go backwards. *)
Definition history := list (world * string).

Fixpoint run_history (rules : list auth_rule) (cache : cmd_cache) (h : history)
  : list (option string) * cmd_cache :=
  match h with
  | [] => ([], cache)
  | (w, url) :: h' =>
    let '(tok, cache1) := auth_resolve w rules cache url in
    let '(toks, cache2) := run_history rules cache1 h' in
    (tok :: toks, cache2)
  end.

Fixpoint times_ordered (t : nat) (h : history) : Prop :=
  match h with
  | [] => True
  | (w, _) :: h' => t <= w_now w /\ times_ordered (w_now w) h'
  end.

(* the token is what the source of the rule gives at this moment, or what its
   helper command printed at a moment of the history less than 30 seconds ago *)
Definition token_of_rule (past : history) (w : world) (r : auth_rule) (tok : string) : Prop :=
  match ar_source r with
  | Token t => tok = t
  | TokenEnv name => w_env w name = Some tok /\ tok <> ""
  | TokenCommand argv =>
    argv <> [] /\
    (w_run w argv = Some tok \/
     exists w' url', In (w', url') past /\ w_run w' argv = Some tok /\ w_now w < w_now w' + 30 * 1000)
  end.

(* the rule a user expects for a URL: it applies, no applicable rule has a longer
   prefix, and it comes first among the rules with that prefix *)
Definition chosen_rule (rules : list auth_rule) (url : string) (r : auth_rule) : Prop :=
  applies r url /\
  (forall r', In r' rules -> applies r' url ->
     String.length (ar_prefix r') <= String.length (ar_prefix r)) /\
  exists before after, rules = before ++ r :: after /\
    forall x, In x before -> ar_prefix x <> ar_prefix r.

(* the host part of a URL: what stands between "://" and the next slash *)
Fixpoint until_slash (s : string) : string :=
  match s with
  | EmptyString => EmptyString
  | String c s' => if Ascii.eqb c "/"%char then EmptyString else String c (until_slash s')
  end.

Fixpoint host_of (s : string) : option string :=
  match s with
  | EmptyString => None
  | String c s' =>
    match strip_prefix "://" s with
    | Some rest => Some (until_slash rest)
    | None => host_of s'
    end
  end.
