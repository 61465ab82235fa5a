(* Schema URLs.  Models crates/weaver_semconv/src/schema_url.rs.
   The `url` crate is a parameter: [url_parse s] is None when Url::parse fails and
   otherwise gives the scheme, the (normalised) path and whether the URL cannot be a
   base (path_segments() is None). *)
From Coq Require Import String Ascii Bool Arith List.
Import ListNotations.
From Verif Require Import Base SemTypes Str.
Local Open Scope string_scope.

(* used by path_segments: schema_url.rs 29-73 *)
Record parsed_url := mk_parsed { pu_scheme : string; pu_path : string; pu_opaque : bool }.

(* schema_url.rs 10-25 *)
Record schema_url := mk_schema_url {
  su_url : string;
  su_name : nat * nat;
  su_version : nat * nat }.

(* char::is_alphanumeric() || '['.  Simplified: every non-ASCII byte counts as
   alphanumeric. *)
(* used by schema_url_new: schema_url.rs 29-73 *)
Definition host_char (c : ascii) : bool :=
  is_ascii_alnum c || negb (is_ascii c) || Ascii.eqb c "["%char.

(* Url::path_segments(): what follows the leading slash, split at slashes *)
(* used by schema_url_new: schema_url.rs 29-73 *)
Definition path_segments (p : parsed_url) : option (list string) :=
  if pu_opaque p then None
  else match pu_path p with
       | String _ rest => Some (split_char "/"%char rest)
       | EmptyString => Some []
       end.

Section Parser.
  Variable url_parse : string -> option parsed_url.

  (* schema_url.rs 29-73: new.  None of the slices can be out of range for a
     parser that reports a scheme no longer than the text; otherwise the slice
     panics, modelled as an error. *)
  Definition schema_url_new (url0 : string) : res schema_url :=
    let url := trim_end is_slash url0 in
    match url_parse url with
    | None => Err "Invalid schema URL"
    | Some parsed =>
      let has_path :=
        match path_segments parsed with
        | Some segs => Nat.ltb 0 (count_if (fun s => negb (String.eqb s "")) segs)
        | None => false
        end in
      if negb has_path then Err "The schema URL must have at least one path segment."
      else
      let scheme_len := String.length (pu_scheme parsed) in
      match slice_from scheme_len url with
      | None => Err "panic"
      | Some after_scheme =>
        match find_char host_char after_scheme with
        | None => Err "The schema URL has an invalid host structure."
        | Some host_offset =>
          let scheme_end := scheme_len + host_offset in
          let full_path := pu_path parsed in
          match slice_from scheme_end url with
          | None => Err "panic"
          | Some rest =>
            match find_str full_path rest with
            | None => Err "The schema URL has an invalid path structure."
            | Some i =>
              let path_start := i + scheme_end in
              let trimmed_path := trim_end is_slash full_path in
              match rfind_char "/"%char trimmed_path with
              | None => Err "The schema URL has an invalid path structure."
              | Some last_slash =>
                Ok (mk_schema_url url
                      (scheme_end, path_start + last_slash)
                      (path_start + last_slash + 1, path_start + String.length trimmed_path))
              end
            end
          end
        end
      end
    end.

  (* schema_url.rs 88-99: name and version; None is the panic of the slice *)
  Definition su_get_name (u : schema_url) : option string :=
    slice (fst (su_name u)) (snd (su_name u)) (su_url u).
  (* as above: schema_url.rs 88-99 *)
  Definition su_get_version (u : schema_url) : option string :=
    slice (fst (su_version u)) (snd (su_version u)) (su_url u).

  (* str::trim().is_empty(), on ASCII white space *)
  (* used by try_from_name_version: schema_url.rs 97-108 *)
  Definition blank_str (s : string) : bool := all_chars is_white s.

  (* schema_url.rs 97-108 *)
  Definition try_from_name_version (name version : string) : res schema_url :=
    if blank_str name || blank_str version then
      Err "Registry name and version cannot be empty."
    else if starts_with "http://" name || starts_with "https://" name then
      schema_url_new (trim_end is_slash name ++ "/" ++ version)
    else schema_url_new ("https://" ++ trim_end is_slash name ++ "/" ++ version).

  (* schema_url.rs 133-159: equality and order are those of the text *)
  Definition su_eqb (a b : schema_url) : bool := String.eqb (su_url a) (su_url b).
  (* as above: schema_url.rs 133-159 *)
  Definition su_cmp (a b : schema_url) : comparison := str_cmp (su_url a) (su_url b).

  (* schema_url.rs 117-123: the text handed to semver::Version::parse *)
  Definition semver_text (u : schema_url) : option string :=
    option_map (trim_start (fun c => Ascii.eqb c "v"%char)) (su_get_version u).
End Parser.
