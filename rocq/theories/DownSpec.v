(* What the task for the downstream repositories is expected to do, in terms of addresses, of what a shell
   reads and of what the remotes hold.  Nothing here uses the functions of DownModel, only its data. *)
From Coq Require Import String Ascii Bool Arith List.
Import ListNotations.
From Verif Require Import Base Str DownModel.
Local Open Scope string_scope.

(* ---------- addresses ---------- *)
(* an address without scheme and without the endings that do not matter *)
Definition plain (core : string) : Prop :=
  (forall t, core <> "https://" ++ t) /\ (forall t, core <> "http://" ++ t) /\
  (forall t, core <> t ++ "/") /\ (forall t, core <> t ++ ".git").
Definition spells (u core : string) : Prop :=
  plain core /\ exists p s, In p [""; "https://"; "http://"] /\ In s [""; "/"; ".git"; ".git/"] /\ u = p ++ core ++ s.
(* no '@' in the last segment *)
Definition no_ref (u : string) : Prop := forall a b, u = a ++ "@" ++ b -> contains "/" b = true.
Definition ref_name (g : string) : Prop := contains "/" g = false /\ contains "@" g = false.
(* [s] is the address [u] alone, or with a ref *)
Inductive written (s u : string) : option string -> Prop :=
| wr_alone : s = u -> no_ref u -> written s u None
| wr_ref g : s = u ++ "@" ++ g -> ref_name g -> written s u (Some g).
Definition configured (cfg : list repo) : Prop :=
  forall r, In r cfg -> exists u g core, written (rp_url r) u g /\ spells u core.
(* the address of a repository *)
Definition address (r : repo) (u : string) : Prop := exists g, written (rp_url r) u g.
Definition ref_or (g : option string) (d : string) : string := match g with Some x => x | None => d end.
(* the repository and the ref an argument stands for: the first repository with that address *)
Definition designates (cfg : list repo) (arg : string) (s : selection) : Prop :=
  exists ua ga core before after u g,
    written arg ua ga /\ spells ua core /\ cfg = app before (se_repo s :: after) /\
    written (rp_url (se_repo s)) u g /\ spells u core /\
    (forall r v h, In r before -> written (rp_url r) v h -> ~ spells v core) /\
    se_ref s = ref_or ga (ref_or g "main").
Definition configured_at (r : repo) (s : selection) : Prop :=
  se_repo s = r /\ exists u g, written (rp_url r) u g /\ se_ref s = ref_or g "main".
Definition chosen (cfg : list repo) (args : list string) (l : list selection) : Prop :=
  (args = [] /\ Forall2 configured_at cfg l) \/ (args <> [] /\ Forall2 (designates cfg) args l).
(* a repository that only runs weaver as an image *)
Definition image_repo (r : repo) : Prop := exists u, address r u /\ spells u "github.com/open-telemetry/semantic-conventions".

(* ---------- what sh reads ---------- *)
(* quoting state; a character read is bare or quoted; [Opened] is a quotation mark, which makes a word
   even of nothing.  In double quotes the backslash keeps its meaning before $ ` double quote and backslash. *)
Inductive quoting := Out | OutEsc | Single | Double | DoubleEsc.
Inductive mark := Bare (c : ascii) | Quoted (c : ascii) | Opened.
Definition dquote : ascii := Ascii.ascii_of_nat 34.
Definition sh_step (q : quoting) (c : ascii) : quoting * list mark :=
  match q with
  | Out => if Ascii.eqb c "'" then (Single, [Opened]) else if Ascii.eqb c dquote then (Double, [Opened])
           else if Ascii.eqb c "\" then (OutEsc, []) else (Out, [Bare c])
  | OutEsc => (Out, if Ascii.eqb c (Ascii.ascii_of_nat 10) then [] else [Quoted c])
  | Single => if Ascii.eqb c "'" then (Out, []) else (Single, [Quoted c])
  | Double => if Ascii.eqb c dquote then (Out, []) else if Ascii.eqb c "\" then (DoubleEsc, [])
              else if Ascii.eqb c "$" || Ascii.eqb c "`" then (Double, [Bare c]) else (Double, [Quoted c])
  | DoubleEsc => (Double, if Ascii.eqb c (Ascii.ascii_of_nat 10) then []
                          else if Ascii.eqb c "$" || Ascii.eqb c "`" || Ascii.eqb c dquote || Ascii.eqb c "\" then [Quoted c]
                          else [Quoted "\"; Quoted c])
  end%char.
Fixpoint sh_read (q : quoting) (s : string) : quoting * list mark :=
  match s with
  | EmptyString => (q, [])
  | String c r => let '(q1, m) := sh_step q c in let '(q2, n) := sh_read q1 r in (q2, app m n)
  end.
(* the characters of a text, all of them quoted: none splits a word or is expanded *)
Definition literally (v : string) (l : list mark) : Prop :=
  In Opened l /\ filter (fun m => match m with Opened => false | _ => true end) l = map Quoted (list_ascii_of_string v).
(* a command with every {weaver}, from the left, replaced *)
Inductive expands (w : string) : string -> string -> Prop :=
| ex_none t : contains "{weaver}" t = false -> expands w t t
| ex_here p t c : contains "{weaver}" (p ++ "{weaver") = false -> expands w t c ->
    expands w (p ++ "{weaver}" ++ t) (p ++ w ++ c).

(* ---------- checkouts ---------- *)
Definition no_slash (s : string) : Prop := contains "/" s = false.
(* the last two segments of an address, the ending .git left out *)
Definition ends_in (u a b : string) : Prop :=
  exists p e, u = p ++ "/" ++ a ++ "/" ++ b ++ e /\ In e [""; ".git"] /\ no_slash a /\ no_slash b /\ b <> "" /\ (forall t, b <> t ++ ".git").
(* the repositories selected, and the checkouts that exist, are told apart by the last two segments *)
Definition told_apart (d : disk) (l : list selection) : Prop :=
  exists at_ : string -> string -> option string,
    (forall s u, In s l -> address (se_repo s) u -> exists a b, ends_in u a b /\ contains "_" a = false /\ at_ a b = Some u) /\
    (forall n u, In (n, u) d -> exists a b, n = a ++ "_" ++ b /\ contains "_" a = false /\ at_ a b = Some u).

(* ---------- the whole task ---------- *)
Definition under_test (w : world) (r : repo) (weaver : string) (bin : option string) : Prop :=
  (image_repo r /\ wo_image w = Some weaver /\ bin = None) \/ (~ image_repo r /\ wo_binary w = Some weaver /\ bin = Some weaver).
Definition passes_check (w : world) (tree weaver : string) (bin : option string) (c : check) : Prop :=
  forall command, expands (shell_quote weaver) (ck_run c) command -> wo_run w tree (ck_dir c) command bin = Exited 0.
Definition passes_repo (w : world) (s : selection) : Prop :=
  exists u tree weaver bin, address (se_repo s) u /\ wo_remote w u (se_ref s) = Some tree /\
    under_test w (se_repo s) weaver bin /\ forall c, In c (rp_checks (se_repo s)) -> passes_check w tree weaver bin c.

(* ---------- which program is run ---------- *)
Definition located (cwd dir name : string) : string :=
  match dir with
  | EmptyString => cwd ++ "/" ++ name
  | String c _ => if Ascii.eqb c "/"%char then dir ++ "/" ++ name else cwd ++ "/" ++ dir ++ "/" ++ name
  end.
(* sh looks in the directories of the search path in order *)
Inductive finds (files : string -> Prop) (cwd name : string) : list string -> string -> Prop :=
| fi_here d r : files (located cwd d name) -> finds files cwd name (d :: r) (located cwd d name)
| fi_later d r f : ~ files (located cwd d name) -> finds files cwd name r f -> finds files cwd name (d :: r) f.
(* the directories of a search path, which ':' separates *)
Definition directories (path : string) (l : list string) : Prop :=
  path = join ":" l /\ l <> [] /\ forall d, In d l -> contains ":" d = false.

(* ---------- waiting ---------- *)
Definition clockwork (look clock : nat -> nat) : Prop := forall k, look k <= clock k /\ clock k <= look (S k).

(* ---------- for the examples ---------- *)
Definition sample_check (run : string) : check := {| ck_name := "generate"; ck_dir := "."; ck_run := run; ck_minutes := None |}.
Definition sample_repo (u : string) : repo := {| rp_url := u; rp_checks := [sample_check "make WEAVER={weaver} check"] |}.
(* the tree fetched is named after the remote; every check passes on the trees of the given remotes *)
Definition sample_world (good : list string) : world :=
  {| wo_remote := fun u g => Some (u ++ " at " ++ g); wo_binary := Some "/w/weaver"; wo_image := Some "img";
     wo_run := fun t _ _ _ => if existsb (fun g => starts_with g t) good then Exited 0 else Exited 1 |}.
