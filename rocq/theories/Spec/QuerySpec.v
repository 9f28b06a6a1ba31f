(** What the shape types of selectors stand for: the documentation of [ShapeType],
    atelier-core/src/model/selector/mod.rs:17-73 (Smithy 1.0 specification, section 14.3). *)
From Verif.Model Require Import SemModel Selector.

Definition numeric (s : simple) : bool :=
  match s with
  | SByte | SShort | SInteger | SLong | SFloat | SDouble | SBigDecimal | SBigInteger => true
  | _ => false
  end.
(** The type of a (resolved) shape. *)
Definition own_type (k : shape_kind) : option shape_type :=
  match k with
  | KSimple SBlob => Some TyBlob | KSimple SBoolean => Some TyBoolean | KSimple SDocument => Some TyDocument
  | KSimple SString => Some TyString | KSimple SByte => Some TyByte | KSimple SShort => Some TyShort
  | KSimple SInteger => Some TyInteger | KSimple SLong => Some TyLong | KSimple SFloat => Some TyFloat
  | KSimple SDouble => Some TyDouble | KSimple SBigInteger => Some TyBigInteger
  | KSimple SBigDecimal => Some TyBigDecimal | KSimple STimestamp => Some TyTimestamp
  | KList _ => Some TyList | KSet _ => Some TySet | KMap _ _ => Some TyMap | KStructure _ => Some TyStructure
  | KUnion _ => Some TyUnion | KService _ => Some TyService | KOperation _ => Some TyOperation
  | KResource _ => Some TyResource | KUnresolved => None
  end.
(** A shape is selected by its own type, by [*], and by the three groups of types. *)
Inductive documented : shape_type -> shape_kind -> Prop :=
| doc_own t k : own_type k = Some t -> documented t k
| doc_any k : k <> KUnresolved -> documented TyAny k
| doc_number s : numeric s = true -> documented TyNumber (KSimple s)
| doc_simple s : documented TySimpleType (KSimple s)
| doc_list m : documented TyCollection (KList m)
| doc_set m : documented TyCollection (KSet m).
(** Where the implementation differs. *)
Inductive number_missing : shape_type -> shape_kind -> Prop :=
| nm_byte : number_missing TyNumber (KSimple SByte)
| nm_long : number_missing TyNumber (KSimple SLong).
Inductive collection_extra : shape_type -> shape_kind -> Prop :=
| ce_map k v : collection_extra TyCollection (KMap k v).
Definition selects (t : shape_type) (k : shape_kind) : Prop :=
  (documented t k /\ ~ number_missing t k) \/ collection_extra t k.

(** Selectors of shape types (and variables, which select everything). *)
Definition types_only (sel : selector) : Prop :=
  forall e, In e sel ->
    match e with XShapeType _ | XDefine _ _ | XReference _ => True | _ => False end.
