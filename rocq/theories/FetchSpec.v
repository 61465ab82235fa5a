(* Vocabulary for the downloads of a process, independent of the code that makes them. *)
From Coq Require Import String Ascii Bool Arith List.
Import ListNotations.
From Verif Require Import Base VdirModel VdirSpec FetchModel.
Local Open Scope string_scope.
Local Open Scope list_scope.

(* the address, in a browser, of a file of a release *)
Definition github_release (url owner repo tag file : string) : Prop :=
  url = ("https://github.com/" ++ owner ++ "/" ++ repo ++ "/releases/download/" ++ tag ++ "/" ++ file)%string /\
  ~ has_char "/"%char owner /\ ~ has_char "/"%char repo /\ ~ has_char "/"%char tag.

(* the address at which GitHub describes the release *)
Definition release_address (owner repo tag : string) : string :=
  ("https://api.github.com/repos/" ++ owner ++ "/" ++ repo ++ "/releases/tags/" ++ tag)%string.

(* the first file of that name in the description of a release is found at [u] *)
Definition listed (rel : release) (file u : string) : Prop :=
  exists before after, rel = Some (before ++ (Some file, Some u) :: after) /\
    forall x, In x before -> fst x <> Some file.

(* no download of that release has been answered so far *)
Definition unanswered (past : list step) (owner repo tag : string) : Prop :=
  forall st file, In st past -> github_release (st_url st) owner repo tag file ->
    st_api st (release_address owner repo tag) = None.

(* [rel] is the first answer given for the release so far *)
Definition first_answer (past : list step) (owner repo tag : string) (rel : release) : Prop :=
  exists before st after file, past = before ++ st :: after /\
    github_release (st_url st) owner repo tag file /\
    st_api st (release_address owner repo tag) = Some rel /\
    unanswered before owner repo tag.

(* what a session logs *)
Definition entry := (step * list request * option string)%type.
Definition step_of (e : entry) : step := fst (fst e).
Definition addresses (rqs : list request) : list string := map rq_url rqs.
Definition the_file (got : option string) : list string :=
  match got with Some u => [u] | None => [] end.

(* every request of a session, with the download it was made for *)
Definition all_requests (log : list entry) : list (step * request) :=
  flat_map (fun e : entry => map (fun rq => (step_of e, rq)) (snd (fst e))) log.

(* a download as a moment of a history of token requests *)
Definition moment (st : step) : world * string := (st_world st, st_url st).
