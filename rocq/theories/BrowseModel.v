(* The search command: src/registry/search.rs.
   The text input is ratatui_textarea::TextArea, of which only two things are used: [input], which
   takes a key and says whether it changed the text, and [lines].  Both are parameters.  Drawing is not
   modelled beyond what is drawn: the list of results, the selected one and its details. *)
From Coq Require Import String Ascii Bool Arith ZArith List.
Import ListNotations.
From Verif Require Import Base Json SemTypes Resolved Str.
Local Open Scope string_scope.

(* crossterm events: a key with its modifiers and kind, or anything else *)
(* used by key_event: src/registry/search.rs 305-327 *)
Inductive key := KeyUp | KeyDown | KeyEsc | KeyChar (c : ascii) | KeyOther (n : nat).
(* used by event: src/registry/search.rs 305-327 *)
Record key_event := { ke_code : key; ke_control : bool; ke_press : bool }.
(* used by process: src/registry/search.rs 305-327 *)
Inductive event := EKey (k : key_event) | EOther.

Section Browse.
  Context {T : Type}.
  Variable input : T -> key_event -> T * bool.
  Variable lines : T -> list string.
  (* whether arithmetic overflow panics (debug builds) or wraps (the release profile of Cargo.toml 160-163) *)
  Variable checked : bool.
  Variable cat : list attribute.

  (* 72-79: SearchApp; usize as Z *)
  Record app := { ap_area : T; ap_selected : option Z }.
  (* 131-133: search_string; [String.concat] is [join] of the standard library *)
  Definition search_string (a : app) : string := String.concat " " (lines (ap_area a)).
  (* 136-141: result_set *)
  Definition result_set (a : app) : list attribute := filter (fun x => contains (search_string a) (at_name x)) cat.
  (* 168-171: result *)
  Definition result (a : app) : option attribute :=
    match ap_selected a with Some i => nth_error (result_set a) (Z.to_nat i) | None => None end.

  (* the casts and the sums of move_index *)
  (* used by add_i32: src/registry/search.rs 330-337 *)
  Definition as_i32 (z : Z) : Z := ((z + 2 ^ 31) mod 2 ^ 32 - 2 ^ 31)%Z.
  (* used by move_index: src/registry/search.rs 330-337 *)
  Definition add_i32 (x y : Z) : option Z :=
    if checked && negb (Z.eqb (as_i32 (x + y)) (x + y)) then None else Some (as_i32 (x + y)).
  (* used by move_index: src/registry/search.rs 330-337 *)
  Definition sub_usize (x y : Z) : option Z :=
    if checked && Z.ltb x y then None else Some ((x - y) mod 2 ^ 64)%Z.
  (* 330-337: move_index; None is a panic *)
  Definition move_index (amt : Z) (a : app) : option app :=
    let result_count := Z.of_nat (List.length (result_set a)) in
    match ap_selected a with
    | Some v =>
      match add_i32 (as_i32 v) amt, sub_usize result_count 1 with
      | Some x, Some last => Some {| ap_area := ap_area a; ap_selected := Some (Z.min (Z.max 0 x) last) |}
      | _, _ => None
      end
    | None => Some {| ap_area := ap_area a; ap_selected := Some 0%Z |}
    end.
  (* 303-327: process *)
  Inductive progress := Going (a : app) | Quit | Crashed.
  (* as above: src/registry/search.rs 303-327 *)
  Definition of_move (o : option app) : progress := match o with Some a => Going a | None => Crashed end.
  (* as above: src/registry/search.rs 303-327 *)
  Definition type_key (a : app) (k : key_event) : progress :=
    let (t, modified) := input (ap_area a) k in
    Going {| ap_area := t; ap_selected := if modified then None else ap_selected a |}.
  (* src/registry/search.rs 305-327 *)
  Definition process (a : app) (e : event) : progress :=
    match e with
    | EOther => Going a
    | EKey k =>
      match ke_code k with
      | KeyChar "q" => if ke_control k then Quit else type_key a k
      | KeyEsc => Quit
      | KeyUp => if ke_press k then of_move (move_index (-1) a) else type_key a k
      | KeyDown => if ke_press k then of_move (move_index 1 a) else type_key a k
      | _ => type_key a k
      end
    end.
  (* 343-361: run_ui, the loop; the events that have come so far *)
  Fixpoint run_ui (a : app) (es : list event) : progress :=
    match es with
    | [] => Going a
    | e :: r => match process a e with Going a' => run_ui a' r | x => x end
    end.
  (* 83-98: new *)
  Definition new_app (empty : T) : app := {| ap_area := empty; ap_selected := None |}.
End Browse.
Arguments app : clear implicits.
Arguments progress : clear implicits.

(* 366-374: run_command_line_search *)
Definition command_line_search (cat : list attribute) (pattern : string) : string :=
  String.concat (String (ascii_of_nat 10) "") (map at_name (filter (fun a => contains pattern (at_name a)) cat)).
