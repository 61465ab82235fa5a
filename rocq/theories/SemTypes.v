(** Data types of semantic conventions shared by several parts of the model. *)
From Coq Require Import String Ascii Bool Arith Lia ZArith NArith List.
From Verif Require Import Base Json.
Import ListNotations.

(** Result of a fallible Rust function; the error payload is abstracted to a string. *)
Inductive res (A : Type) := Ok (a : A) | Err (e : string).
Arguments Ok {A}. Arguments Err {A}.

(* the `?` operator on Result (library) *)
Definition rbind {A B} (r : res A) (f : A -> res B) : res B :=
  match r with Ok a => f a | Err e => Err e end.
Notation "'let*' p := e 'in' b" := (rbind e (fun p => b))
  (at level 61, p pattern, e at next level, right associativity).

(** crates/weaver_semconv/src/stability.rs 12-32 ([Stability]; declaration order is the derived order). *)
Inductive stability := SDeprecated | SStable | SDevelopment | SAlpha | SBeta | SRc.

(* PartialEq, derived: crates/weaver_semconv/src/stability.rs 15-30 *)
Definition stability_eqb (a b : stability) : bool :=
  match a, b with
  | SDeprecated, SDeprecated | SStable, SStable | SDevelopment, SDevelopment
  | SAlpha, SAlpha | SBeta, SBeta | SRc, SRc => true
  | _, _ => false
  end.

(** stability.rs Display. *)
Definition stability_str (s : stability) : string :=
  match s with
  | SDeprecated => "deprecated" | SStable => "stable" | SDevelopment => "development"
  | SAlpha => "alpha" | SBeta => "beta" | SRc => "release_candidate"
  end.

(** crates/weaver_semconv/src/deprecated.rs 20-55 ([Deprecated]). *)
Inductive deprecated :=
| DRenamed (renamed_to : string) (note : option string)
| DObsoleted (note : string)
| DUncategorized (note : string)
| DUnspecified (note : string).

(** crates/weaver_semconv/src/attribute.rs [PrimitiveOrArrayTypeSpec]. *)
(* crates/weaver_semconv/src/attribute.rs 272-296 *)
Inductive prim := PBoolean | PInt | PDouble | PString | PAny | PStrings | PInts | PDoubles | PBooleans.

(* PartialEq, derived: crates/weaver_semconv/src/attribute.rs 272-296 *)
Definition prim_eqb (a b : prim) : bool :=
  match a, b with
  | PBoolean, PBoolean | PInt, PInt | PDouble, PDouble | PString, PString | PAny, PAny
  | PStrings, PStrings | PInts, PInts | PDoubles, PDoubles | PBooleans, PBooleans => true
  | _, _ => false
  end.

(** attribute.rs Display for PrimitiveOrArrayTypeSpec. *)
Definition prim_str (p : prim) : string :=
  match p with
  | PBoolean => "boolean" | PInt => "int" | PDouble => "double" | PString => "string"
  | PAny => "any" | PStrings => "string[]" | PInts => "int[]" | PDoubles => "double[]"
  | PBooleans => "boolean[]"
  end.

(** attribute.rs [ValueSpec]; doubles by bit pattern. *)
(* crates/weaver_semconv/src/attribute.rs 482-492 *)
Inductive value_spec := VInt (z : Z) | VDouble (bits : N) | VString (s : string) | VBool (b : bool).

(** attribute.rs [EnumEntriesSpec]. *)
(* crates/weaver_semconv/src/attribute.rs 393-419 *)
Record enum_entry := {
  ee_id : string;
  ee_value : value_spec;
  ee_brief : option string;
  ee_note : option string;
  ee_stability : option stability;
  ee_deprecated : option deprecated;
  ee_annotations : option (list (string * json))
}.

(** attribute.rs [AttributeType]; a template type is represented by its element type
    ([TemplateTypeSpec] has the same nine cases as [PrimitiveOrArrayTypeSpec]). *)
(* crates/weaver_semconv/src/attribute.rs 216-226 *)
Inductive attr_type := TPrim (p : prim) | TTemplate (p : prim) | TEnum (members : list enum_entry).

(* the template types of crates/weaver_semconv/src/attribute.rs 216-226 *)
Definition is_template (t : attr_type) : bool :=
  match t with TTemplate _ => true | _ => false end.

(** attribute.rs [RequirementLevel] and [BasicRequirementLevelSpec]. *)
(* crates/weaver_semconv/src/attribute.rs 737-758 *)
Inductive req_level :=
| RRequired | RRecommended | ROptIn
| RRecommendedText (t : string) | ROptInText (t : string) | RConditional (t : string).

(** attribute.rs [AttributeRole]. *)
(* crates/weaver_semconv/src/attribute.rs 251-257 *)
Inductive attr_role := Identifying | Descriptive.

(** attribute.rs [Examples]; doubles by bit pattern. *)
(* crates/weaver_semconv/src/attribute.rs 546-578 *)
Inductive examples :=
| EBool (b : bool) | EInt (z : Z) | EDouble (d : N) | EString (s : string) | EAny (v : value_spec)
| EInts (l : list Z) | EDoubles (l : list N) | EBools (l : list bool) | EStrings (l : list string)
| EAnys (l : list value_spec)
| EListInts (l : list (list Z)) | EListDoubles (l : list (list N))
| EListBools (l : list (list bool)) | EListStrings (l : list (list string)).

(** crates/weaver_resolved_schema/src/attribute.rs [Attribute]. The field [value]
    is never set by the resolver and is omitted; [tags] likewise. *)
Record attribute := {
  at_name : string;
  at_type : attr_type;
  at_brief : string;
  at_examples : option examples;
  at_tag : option string;
  at_req : req_level;
  at_sampling : option bool;
  at_note : string;
  at_stability : option stability;
  at_deprecated : option deprecated;
  at_prefix : bool;
  at_annotations : option (list (string * json));
  at_role : option attr_role
}.

(** crates/weaver_semconv/src/group.rs 637-659 [GroupType]. *)
Inductive group_type :=
| GAttributeGroup | GSpan | GEvent | GMetric | GMetricGroup | GEntity | GScope | GUndefined.

(* PartialEq, derived: crates/weaver_semconv/src/group.rs 637-659 *)
Definition group_type_eqb (a b : group_type) : bool :=
  match a, b with
  | GAttributeGroup, GAttributeGroup | GSpan, GSpan | GEvent, GEvent | GMetric, GMetric
  | GMetricGroup, GMetricGroup | GEntity, GEntity | GScope, GScope | GUndefined, GUndefined => true
  | _, _ => false
  end.

(** group.rs 706-716 [InstrumentSpec]. *)
Inductive instrument := UpDownCounter | Counter | Gauge | Histogram.

(* PartialEq, derived: crates/weaver_semconv/src/group.rs 706-716 *)
Definition instrument_eqb (a b : instrument) : bool :=
  match a, b with
  | UpDownCounter, UpDownCounter | Counter, Counter | Gauge, Gauge | Histogram, Histogram => true
  | _, _ => false
  end.

(* Display for InstrumentSpec, crates/weaver_semconv/src/group.rs 706-730 *)
Definition instrument_str (i : instrument) : string :=
  match i with
  | UpDownCounter => "updowncounter" | Counter => "counter" | Gauge => "gauge"
  | Histogram => "histogram"
  end.

(** crates/weaver_semconv/src/entity_association.rs [EntityAssociation] with the leaf
    type as a parameter (a name in v1, a reference in v2). *)
(* crates/weaver_semconv/src/entity_association.rs 22-39 *)
Inductive assoc (L : Type) :=
| ARef (l : L)
| AOneOf (cs : list (assoc L))
| AAllOf (cs : list (assoc L)).
Arguments ARef {L}. Arguments AOneOf {L}. Arguments AAllOf {L}.

Section AssocInd.
  Context {L : Type}.
  Variable P : assoc L -> Prop.
  Hypothesis Href : forall l, P (ARef l).
  Hypothesis Hone : forall cs, Forall P cs -> P (AOneOf cs).
  Hypothesis Hall : forall cs, Forall P cs -> P (AAllOf cs).

  Fixpoint assoc_ind2 (a : assoc L) : P a :=
    let go := fix go (l : list (assoc L)) : Forall P l :=
        match l with
        | [] => Forall_nil _
        | x :: r => Forall_cons _ (assoc_ind2 x) (go r)
        end in
    match a with
    | ARef l => Href l
    | AOneOf cs => Hone cs (go cs)
    | AAllOf cs => Hall cs (go cs)
    end.
End AssocInd.
