(* Vocabulary of the search command (C98). *)
From Coq Require Import String Ascii Bool Arith ZArith List.
Import ListNotations.
From Verif Require Import Base Json SemTypes Resolved BrowseModel.
Local Open Scope string_scope.

(* [w] occurs in [s] *)
Definition within (w s : string) : Prop := exists before after, s = before ++ w ++ after.
(* [m] holds the elements of [l] that satisfy [P], in their order *)
Inductive picks {A} (P : A -> Prop) : list A -> list A -> Prop :=
| pk_nil : picks P [] []
| pk_skip a l m : ~ P a -> picks P l m -> picks P (a :: l) m
| pk_take a l m : P a -> picks P l m -> picks P (a :: l) (a :: m).

Section Sessions.
  Context {T : Type}.
  Variable input : T -> key_event -> T * bool.
  Variable lines : T -> list string.
  (* a key the text input says changed nothing leaves the text as it is *)
  Definition honest : Prop := forall t k t', input t k = (t', false) -> lines t' = lines t.
  (* what the user typed so far, and the attributes listed for it *)
  Definition typed (a : app T) (w : string) : Prop := w = String.concat " " (lines (ap_area a)).
  Definition listed (cat : list attribute) (a : app T) (l : list attribute) : Prop :=
    exists w, typed a w /\ picks (fun x => within w (at_name x)) cat l.
End Sessions.
Definition pressed (e : event) (k : key) : Prop := exists c, e = EKey {| ke_code := k; ke_control := c; ke_press := true |}.
Definition moves (e : event) : Prop := pressed e KeyUp \/ pressed e KeyDown.
(* Escape, or q with Control *)
Definition leaves (e : event) : Prop :=
  exists k, e = EKey k /\ (ke_code k = KeyEsc \/ (ke_code k = KeyChar "q" /\ ke_control k = true)).
(* the catalogs a machine can hold *)
Definition bounded (cat : list attribute) : Prop := (Z.of_nat (List.length cat) < 2 ^ 31)%Z.

(* ---------- samples: a text input that only appends characters ---------- *)
Definition sample_input (t : string) (k : key_event) : string * bool :=
  match ke_code k with KeyChar c => (t ++ String c "", true) | _ => (t, false) end.
Definition sample_lines (t : string) : list string := [t].
Definition browse_attr (n : string) : attribute :=
  {| at_name := n; at_type := TPrim PString; at_brief := ""; at_examples := None; at_tag := None; at_req := RRecommended;
     at_sampling := None; at_note := ""; at_stability := None; at_deprecated := None; at_prefix := false; at_annotations := None; at_role := None |}.
Definition browse_cat : list attribute := map browse_attr ["http.method"; "db.name"; "http.url"].
Definition hit (k : key) : event := EKey {| ke_code := k; ke_control := false; ke_press := true |}.
