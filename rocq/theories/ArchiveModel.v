(* The directory an archive or a repository is fetched into (crates/weaver_common/src/vdir.rs).

   Model of what VirtualDirectory::try_new leaves on disk for a local archive, a remote archive and a git
   repository.  Reading gzip, tar and zip, downloading and cloning are libraries: their results are given.
   The paths are those of VdirModel (components, path_to_unpack).  Links, permissions and the device are not
   modelled: an entry is a directory or a file with its content.  A path with `..` or an absolute path is left
   to C50: the outcome is then [Strange]. *)
From Coq Require Import String Ascii Bool Arith List.
From Verif Require Import Base Str VdirModel.
Import ListNotations.
Open Scope string_scope.

(* an entry of an archive, as the tar and the zip crate hand it out *)
(* used by entry: vdir.rs 863-899, vdir.rs 909-957 *)
Inductive kind :=
| KDir
| KFile (content : string).

(* used by unpack: vdir.rs 863-899, vdir.rs 909-957 *)
Record entry := mk_entry { e_path : string; e_kind : kind }.

(* what is on disk below the temporary directory, by the names that lead there.  The temporary directory itself
   is always there. *)
(* used by tree: vdir.rs 1003-1012, vdir.rs 889-895, vdir.rs 928-953 *)
Inductive node :=
| NDir
| NFile (content : string).

(* used by entry_at: vdir.rs 1003-1012, vdir.rs 889-895, vdir.rs 928-953 *)
Definition tree := list (list string * node).

(* used by entry_at: vdir.rs 1003-1012, vdir.rs 889-895, vdir.rs 928-953 *)
Fixpoint names_eqb (a b : list string) : bool :=
  match a, b with
  | [], [] => true
  | x :: a', y :: b' => String.eqb x y && names_eqb a' b'
  | _, _ => false
  end.

(* used by node_at: vdir.rs 1003-1012, vdir.rs 889-895, vdir.rs 928-953 *)
Fixpoint entry_at (t : tree) (p : list string) : option node :=
  match t with
  | [] => None
  | (q, n) :: t' => if names_eqb q p then Some n else entry_at t' p
  end.

(* used by make_dirs: vdir.rs 1003-1012, vdir.rs 889-895, vdir.rs 928-953 *)
Definition node_at (t : tree) (p : list string) : option node :=
  match p with [] => Some NDir | _ => entry_at t p end.

(* used by make_dirs: vdir.rs 1003-1012, vdir.rs 889-895, vdir.rs 928-953 *)
Definition put (t : tree) (p : list string) (n : node) : tree := (p, n) :: t.

(* std::fs::create_dir_all: each directory on the way is made unless it is there; a file in the way is an error *)
(* used by write_entry: vdir.rs 1003-1012, vdir.rs 889-895, vdir.rs 928-953 *)
Fixpoint make_dirs (t : tree) (here rest : list string) : option tree :=
  match rest with
  | [] => Some t
  | n :: rest' =>
    let d := (here ++ [n])%list in
    match node_at t d with
    | Some (NFile _) => None
    | Some NDir => make_dirs t d rest'
    | None => make_dirs (put t d NDir) d rest'
    end
  end.

(* used by write_entry: vdir.rs 1003-1012, vdir.rs 889-895, vdir.rs 928-953 *)
Inductive outcome :=
| Unpacked (t : tree)
| Refused (why : string)
| Strange.

(* the names of a path below the target; a leading `.` is the target itself *)
(* used by write_entry: vdir.rs 1003-1012, vdir.rs 889-895, vdir.rs 928-953 *)
Fixpoint names_of (cs : list component) : option (list string) :=
  match cs with
  | [] => Some []
  | Normal n :: cs' => match names_of cs' with Some ns => Some (n :: ns) | None => None end
  | CurDir :: cs' => names_of cs'
  | _ => None
  end.

(* vdir.rs 1003-1012 create_parent_dirs, then 889-895 (tar::Entry::unpack) or 928-953 (create_dir_all, or
   File::create and io::copy): the entry is written at its path.  An existing file is replaced, an existing
   directory is in the way of a file. *)
Definition write_entry (t : tree) (cs : list component) (k : kind) : outcome :=
  match names_of cs with
  | None => Strange
  | Some p =>
    match make_dirs t [] (removelast p) with
    | None => Refused "parent"
    | Some t1 =>
      match k with
      | KDir => match make_dirs t1 [] p with Some t2 => Unpacked t2 | None => Refused "exists" end
      | KFile c =>
        match node_at t1 p with
        | Some NDir => Refused "is a directory"
        | _ => Unpacked (put t1 p (NFile c))
        end
      end
    end
  end.

(* the path is the one of the archive file that is being read *)
(* used by unpack: vdir.rs 863-899, vdir.rs 909-957 *)
Definition over_itself (reading : option string) (cs : list component) : bool :=
  match reading, names_of cs with
  | Some n, Some [m] => String.eqb n m
  | _, _ => false
  end.

(* vdir.rs 863-899 unpack_tar_gz and 909-957 unpack_zip: entry after entry; an entry without a usable name or
   outside of the sub-folder is skipped, the first error ends it.  [named] is the path of an entry: tar gives
   every path, zip only those its crate regards as enclosed.  [reading] is the name of the archive itself when
   a zip archive lies in the directory it is unpacked into: writing over it changes what is being read. *)
Fixpoint unpack (named : string -> option (list component)) (reading : option string)
  (sub_folder : option string) (t : tree) (es : list entry) : outcome :=
  match es with
  | [] => Unpacked t
  | e :: es' =>
    match named (e_path e) with
    | None => unpack named reading sub_folder t es'
    | Some cs =>
      match path_to_unpack cs sub_folder with
      | None => unpack named reading sub_folder t es'
      | Some below =>
        if over_itself reading below then Strange
        else match write_entry t below (e_kind e) with
             | Unpacked t' => unpack named reading sub_folder t' es'
             | o => o
             end
      end
    end
  end.

(* the crates: the entries in the bytes of an archive (None: it cannot be read), ZipFile::enclosed_name *)
(* used by unpack_archive: vdir.rs 814-852 *)
Record libs := mk_libs {
  read_tar_gz : string -> option (list entry);
  read_zip : string -> option (list entry);
  enclosed_name : string -> option (list component)
}.

(* vdir.rs 814-852 try_from_local_archive, from the opened file on.  Simplified: an archive that cannot be read
   to its end is refused at once; the directory is dropped with the error either way. *)
Definition unpack_archive (L : libs) (archive_filename bytes : string) (reading : option string)
  (sub_folder : option string) (t : tree) : outcome :=
  if ends_with ".tar.gz" archive_filename then
    match read_tar_gz L bytes with
    | Some es => unpack (fun p => Some (components p)) None sub_folder t es
    | None => Refused "invalid archive"
    end
  else if ends_with ".zip" archive_filename then
    match read_zip L bytes with
    | Some es => unpack (enclosed_name L) reading sub_folder t es
    | None => Refused "invalid archive"
    end
  else Refused "unsupported archive".

(* vdir.rs 814-852: [on_disk] is the content of the archive file *)
Definition fetch_local (L : libs) (archive_filename : string) (on_disk : option string)
  (sub_folder : option string) : outcome :=
  match on_disk with
  | None => Refused "This archive file doesn't exist"
  | Some bytes => unpack_archive L archive_filename bytes None sub_folder []
  end.

(* url::Url::path_segments().next_back(): the last segment of the path of an http url, without query and
   fragment.  Simplified: dot segments and percent encoding are left as they are. *)
(* used by url_path: vdir.rs 1043-1049 *)
Fixpoint before_char (c : ascii) (s : string) : string :=
  match s with
  | EmptyString => EmptyString
  | String d s' => if Ascii.eqb c d then EmptyString else String d (before_char c s')
  end.

(* used by url_file_name: vdir.rs 1043-1049 *)
Definition url_path (url : string) : string := before_char "?" (before_char "#" url).

(* vdir.rs 1043-1049: the segments after `https:`, `` and the host; an empty name is none *)
Definition url_file_name (url : string) : option string :=
  match split_slash (url_path url) with
  | _ :: _ :: _ :: seg :: segs =>
    let n := last (seg :: segs) "" in
    if String.eqb n "" then None else Some n
  | _ => None
  end.

(* vdir.rs 1033-1061 try_from_remote_archive: the answer is saved under the last name of the url, in the
   directory it is then unpacked into *)
Definition fetch_remote (L : libs) (url : string) (answer : option string) (sub_folder : option string)
  : outcome :=
  match url_file_name url with
  | None => Refused "Failed to extract file name from URL"
  | Some n =>
    match answer with
    | None => Refused "download"
    | Some bytes => unpack_archive L n bytes (Some n) sub_folder (put [] [n] (NFile bytes))
    end
  end.

(* vdir.rs 665-773 try_from_git_url, after the clone and the checkout (gix): [checkout] is the work tree.  The
   directory is the one at the sub-folder, which has to exist: 745-765. *)
Inductive place :=
| At (t : tree) (root : list string)
| NotThere (why : string)
| Elsewhere.

(* as above: vdir.rs 665-773, vdir.rs 745-765 *)
Definition fetch_git (checkout : option tree) (sub_folder : option string) : place :=
  match checkout with
  | None => NotThere "git"
  | Some t =>
    match sub_folder with
    | None => At t []
    | Some sub =>
      match names_of (components sub) with
      | None => Elsewhere
      | Some p => match node_at t p with
                  | Some _ => At t p
                  | None => NotThere "not found in repo"
                  end
      end
    end
  end.
