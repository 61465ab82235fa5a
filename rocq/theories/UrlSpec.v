(* Vocabulary for the properties of schema URLs. *)
From Coq Require Import String Ascii Bool Arith List.
Import ListNotations.
From Verif Require Import Base SemTypes Str UrlModel.
Local Open Scope string_scope.

Definition no_slash (s : string) : Prop := forall a b, s <> a ++ "/" ++ b.

(* characters that a URL parser leaves alone in a host and in a path *)
Definition plain_char (c : ascii) : bool :=
  is_digit c || is_lower c || Ascii.eqb c "-"%char || Ascii.eqb c "_"%char.
Definition path_char (c : ascii) : bool :=
  plain_char c || is_upper c || Ascii.eqb c "."%char.

(* a host name: starts with a letter or digit; dots allowed *)
Definition plain_host (h : string) : Prop :=
  exists c r, h = String c r /\ (is_digit c || is_lower c = true) /\
    all_chars (fun d => plain_char d || Ascii.eqb d "."%char) r = true.

(* a path segment: not empty, not "." or ".." *)
Definition plain_segment (s : string) : Prop :=
  s <> "" /\ s <> "." /\ s <> ".." /\ all_chars path_char s = true.

(* "/seg1/seg2/..." *)
Fixpoint path_of (segs : list string) : string :=
  match segs with
  | [] => ""
  | s :: r => "/" ++ s ++ path_of r
  end.

(* What is assumed of the URL parser: it reads plain http(s) URLs as written.
   Nothing is assumed about any other text. *)
Definition reads_plain_urls (url_parse : string -> option parsed_url) : Prop :=
  forall scheme host segs,
    scheme = "http" \/ scheme = "https" ->
    plain_host host -> segs <> [] -> Forall plain_segment segs ->
    url_parse (scheme ++ "://" ++ host ++ path_of segs)
    = Some (mk_parsed scheme (path_of segs) false).

(* A parser that meets the assumption: scheme up to "://", host up to the first
   slash, the rest is the path. *)
Fixpoint from_slash (s : string) : string :=
  match s with
  | EmptyString => EmptyString
  | String c s' => if is_slash c then s else from_slash s'
  end.

Definition simple_parser (s : string) : option parsed_url :=
  match strip_prefix "https://" s with
  | Some r => Some (mk_parsed "https" (from_slash r) false)
  | None => match strip_prefix "http://" s with
            | Some r => Some (mk_parsed "http" (from_slash r) false)
            | None => None
            end
  end.
