(* What the directory of an archive should hold, without the model's functions. *)
From Coq Require Import String Ascii Bool Arith List.
From Verif Require Import ArchiveModel.
Import ListNotations.
Open Scope string_scope.

(* a name of a file or directory *)
Definition well_named (n : string) : Prop :=
  n <> "" /\ n <> "." /\ n <> ".." /\
  forall a b, n <> (a ++ String "/" b)%string.

(* names with slashes between them *)
Fixpoint slashed (ns : list string) : string :=
  match ns with
  | [] => ""
  | [n] => n
  | n :: ns' => n ++ "/" ++ slashed ns'
  end.

(* what was packed: the names from the top of the archive on, and what is there *)
Definition item : Type := list string * kind.

(* the archive's own folder may also be written as `.` *)
Definition packable (i : item) : Prop :=
  exists top rest, fst i = top :: rest /\ (well_named top \/ top = ".") /\ forall n, In n rest -> well_named n.

(* how an item is written in an archive: a directory with or without a slash at its end *)
Definition packs (e : entry) (i : item) : Prop :=
  e_kind e = snd i /\
  (e_path e = slashed (fst i) \/
   (snd i = KDir /\ e_path e = (slashed (fst i) ++ "/")%string)).

(* the place below the top folder, or below the sub-folder of it *)
Definition inside (sub : option string) (names rest : list string) : Prop :=
  exists top, match sub with
              | None => names = top :: rest
              | Some s => names = top :: s :: rest
              end.

(* a sub-folder that is one name *)
Definition one_name (sub : option string) : Prop :=
  match sub with
  | None => True
  | Some s => well_named s /\ exists a c b, s = (a ++ String c b)%string /\ ~ In c [" "; "009"; "010"; "011"; "012"; "013"]%char
  end.

(* no file where the directory itself has to be *)
Definition no_file_on_top (sub : option string) (items : list item) : Prop :=
  forall names c, In (names, KFile c) items ->
    (exists a b rest, names = a :: b :: rest) /\ ~ inside sub names [].

(* no file is where something else needs a directory *)
Definition consistent (sub : option string) (items : list item) : Prop :=
  forall n1 c p1 n2 k p2,
    In (n1, KFile c) items -> inside sub n1 p1 ->
    In (n2, k) items -> inside sub n2 p2 ->
    (forall x rest, p2 <> (p1 ++ x :: rest)%list) /\ (k = KDir -> p2 <> p1).

(* the content of the last file packed for a place *)
Definition last_file (sub : option string) (items : list item) (p : list string) (c : string) : Prop :=
  exists before names after,
    items = (before ++ (names, KFile c) :: after)%list /\ inside sub names p /\
    forall names' c', In (names', KFile c') after -> ~ inside sub names' p.

(* a directory: one that was packed, or one on the way to something *)
Definition a_directory (sub : option string) (items : list item) (p : list string) : Prop :=
  p = [] \/
  exists names k q, In (names, k) items /\ inside sub names q /\
    ((k = KDir /\ q = p) \/ exists x rest, q = (p ++ x :: rest)%list).

(* the archive is read as these entries: by the end of its name it is a tar or a zip archive.  The names of a zip
   archive are ones its crate hands out as they are. *)
Definition reads (L : libs) (name bytes : string) (es : list entry) : Prop :=
  (exists stem, name = (stem ++ ".tar.gz")%string /\ read_tar_gz L bytes = Some es) \/
  (exists stem, name = (stem ++ ".zip")%string /\ read_zip L bytes = Some es /\
     forall e, In e es -> enclosed_name L (e_path e) = Some (VdirModel.components (e_path e))).

(* scheme://host/dirs/n without a query *)
Definition url_of_file (url n : string) : Prop :=
  exists scheme host dirs,
    url = slashed (scheme :: "" :: host :: dirs ++ [n])%list /\ n <> "" /\
    (forall x, In x (scheme :: host :: dirs ++ [n])%list -> forall a b, x <> (a ++ String "/" b)%string) /\
    (forall a b, url <> (a ++ String "?" b)%string) /\ (forall a b, url <> (a ++ String "#" b)%string).

(* a sample: a repository as GitHub packs it *)
Definition sample_items : list item :=
  [(["semconv-1.0"], KDir);
   (["semconv-1.0"; "README.md"], KFile "readme");
   (["semconv-1.0"; "model"], KDir);
   (["semconv-1.0"; "model"; "http"; "spans.yaml"], KFile "groups: []");
   (["semconv-1.0"; "model"; "manifest.yaml"], KFile "name: acme");
   (["semconv-1.0"; "model"; "manifest.yaml"], KFile "name: acme2")].

Definition sample_entries : list entry :=
  [mk_entry "semconv-1.0/" KDir;
   mk_entry "semconv-1.0/README.md" (KFile "readme");
   mk_entry "semconv-1.0/model/" KDir;
   mk_entry "semconv-1.0/model/http/spans.yaml" (KFile "groups: []");
   mk_entry "semconv-1.0/model/manifest.yaml" (KFile "name: acme");
   mk_entry "semconv-1.0/model/manifest.yaml" (KFile "name: acme2")].

Definition sample_libs (es : list entry) : libs :=
  mk_libs (fun _ => Some es) (fun _ => Some es) (fun p => Some (VdirModel.components p)).
