(* What the annotations on the fields of a command promise. *)
From Coq Require Import String Ascii Bool Arith ZArith List.
Import ListNotations.
From Verif Require Import Base MacroModel.
Local Open Scope string_scope.

(* ---------- annotations ---------- *)
(* the first annotation that says what a field is for decides *)
Definition decisive (a : fattr) : Prop :=
  match a with FConfig _ | FConfigOnly _ | FShared (Some _) => True | _ => False end.
Definition decided_by (f : field) (a : fattr) : Prop :=
  decisive a /\ exists before after, fl_attrs f = List.app before (a :: after) /\ Forall (fun x => ~ decisive x) before.
Definition configured (f : field) (args : list meta) : Prop := decided_by f (FConfig args) \/ decided_by f (FConfigOnly args).
(* the last word on a default, on a path *)
Definition says (mk : string -> meta) (args : list meta) (s : string) : Prop :=
  exists a b, args = List.app a (mk s :: b) /\ forall x, ~ In (mk x) b.
Definition silent (mk : string -> meta) (args : list meta) : Prop := forall x, ~ In (mk x) args.
(* a path written with dots *)
Definition dotted (s : string) (p : list string) : Prop :=
  p <> [] /\ s = join "." p /\ Forall (fun x => forall a b, x <> a ++ "." ++ b) p.
(* the setting a field is about, and whether it can be left unset *)
Definition target (f : field) (p : list string) : Prop :=
  exists args, configured f args /\
    ((exists s, says MPath args s /\ dotted s p) \/ (silent MPath args /\ p = [fl_name f])).
Definition may_be_unset (f : field) : Prop :=
  exists args, configured f args /\
    ((exists s, says MPath args s /\ In MOptional args) \/ (silent MPath args /\ silent MDefault args)).

(* ---------- configurations ---------- *)
Fixpoint at_path (p : list string) (v : value) : option value :=
  match p with
  | [] => Some v
  | k :: r => match v with VStruct l => match slookup k l with Some w => at_path r w | None => None end | _ => None end
  end.
(* neither is inside the other *)
Definition apart (p q : list string) : Prop := (forall r, p <> List.app q r) /\ (forall r, q <> List.app p r).
(* no two fields are about the same setting *)
Definition separate (fs : list field) : Prop :=
  ForallOrdPairs (fun f g => forall p q, target f p -> target g q -> apart p q) fs.

(* ---------- the types of settings ---------- *)
Inductive int_range : string -> Z -> Z -> Prop :=
| r_u8 : int_range "u8" 0 (2 ^ 8 - 1)
| r_u16 : int_range "u16" 0 (2 ^ 16 - 1)
| r_u32 : int_range "u32" 0 (2 ^ 32 - 1)
| r_u64 : int_range "u64" 0 (2 ^ 64 - 1)
| r_usize : int_range "usize" 0 (2 ^ 64 - 1)
| r_i8 : int_range "i8" (- 2 ^ 7) (2 ^ 7 - 1)
| r_i16 : int_range "i16" (- 2 ^ 15) (2 ^ 15 - 1)
| r_i32 : int_range "i32" (- 2 ^ 31) (2 ^ 31 - 1)
| r_i64 : int_range "i64" (- 2 ^ 63) (2 ^ 63 - 1).
Definition digit (c : ascii) (d : Z) : Prop := exists n, n <= 9 /\ c = ascii_of_nat (48 + n) /\ d = Z.of_nat n.
(* a number written with digits *)
Inductive digits : string -> Z -> Prop :=
| digits_one : forall c d, digit c d -> digits (String c EmptyString) d
| digits_more : forall s z c d, digits s z -> digit c d -> digits (s ++ String c EmptyString) (10 * z + d)%Z.
Definition numeral (s : string) (z : Z) : Prop :=
  digits s z \/ (exists r, s = "+" ++ r /\ digits r z) \/ (exists r y, s = "-" ++ r /\ digits r y /\ z = (- y)%Z).
(* the text is a number of that type (unsigned types take no minus, not even before zero) *)
Definition reads_int (n s : string) (z : Z) : Prop :=
  exists lo hi, int_range n lo hi /\ (lo <= z <= hi)%Z /\ numeral s z /\ (lo = 0%Z -> forall r, s <> "-" ++ r).
Definition named_types : list string :=
  ["String"; "PathBuf"; "SocketAddr"; "bool"; "u8"; "u16"; "u32"; "u64"; "usize"; "i8"; "i16"; "i32"; "i64"; "f32"; "f64"].
(* a text read as a value of the type *)
Definition reads (addr_ok : string -> bool) (float_parse : string -> string -> option N) (n s : string) (v : value) : Prop :=
  match v with
  | VText x => n = "String" /\ x = s
  | VPath x => n = "PathBuf" /\ x = s
  | VAddr x => n = "SocketAddr" /\ x = s /\ addr_ok s = true
  | VBool b => n = "bool" /\ s = (if b then "true" else "false")
  | VInt t z => t = n /\ reads_int n s z
  | VFloat t x => t = n /\ (n = "f32" \/ n = "f64") /\ float_parse n s = Some x
  | VOwned x => x = s /\ ~ In n named_types
  | _ => False
  end.
Fixpoint typed (t : rty) (v : value) : Prop :=
  match t with
  | TName n =>
    match v with
    | VText _ => n = "String"
    | VPath _ => n = "PathBuf"
    | VAddr _ => n = "SocketAddr"
    | VBool _ => n = "bool"
    | VInt m z => m = n /\ exists lo hi, int_range n lo hi /\ (lo <= z <= hi)%Z
    | VFloat m _ => m = n /\ (n = "f32" \/ n = "f64")
    | _ => False
    end
  | TOption t' => match v with VNone => True | VSome w => typed t' w | _ => False end
  | TVec t' => match v with VList l => Forall (typed t') l | _ => False end
  end.
(* a value of the generated struct *)
Definition struct_typed (s : list (string * rty)) (v : value) : Prop :=
  exists l, v = VStruct l /\ Forall2 (fun a b => fst a = fst b /\ typed (snd a) (snd b)) s l.

(* ---------- examples ---------- *)
(* a default that is no port *)
Definition odd_command : command :=
  cmd "odd" true [cfg_default "port" "u16" "70000"; cfg_default "verbose" "bool" "yes"].
Definition twice_command : command :=
  {| cm_section := "twice"; cm_no_policy := true; cm_external := Some (VStruct [("a", VStruct [("port", VInt "u16" 1)])]);
     cm_fields := [cfg_path "port" "u16" "a.port"; cfg_path "other_port" "u16" "a.port"] |}.
