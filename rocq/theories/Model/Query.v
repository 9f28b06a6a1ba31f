(** Model of atelier-query/src/evaluate.rs and projection.rs. *)
From Verif.Model Require Export SemModel Selector.

(** [Projection], projection.rs:17-23. *)
Inductive projection :=
| PrEmpty
| PrShapes (ids : list shape_id)
| PrMembers (ids : list shape_id)
| PrValues (vs : list value).

(** [is_simple], [is_list], ... of [ShapeKind], atelier-core/src/model/shapes/mod.rs. *)
Definition is_simple_kind (k : shape_kind) : bool := match k with KSimple _ => true | _ => false end.
Definition is_simple_of (ty : simple) (k : shape_kind) : bool :=
  match k with KSimple s => simple_eqb s ty | _ => false end.
(** [match_by_shape_type], evaluate.rs:137-225. *)
Definition match_by_shape_type (t : shape_type) (s : shape) : bool :=
  let k := ts_body s in
  match t with
  | TyAny => true
  | TyNumber =>
      match k with
      | KSimple SBigDecimal | KSimple SBigInteger | KSimple SDouble | KSimple SFloat | KSimple SInteger
      | KSimple SShort => true
      | _ => false
      end
  | TySimpleType => is_simple_kind k
  | TyCollection => match k with KList _ | KSet _ | KMap _ _ => true | _ => false end
  | TyBlob => is_simple_of SBlob k
  | TyBoolean => is_simple_of SBoolean k
  | TyDocument => is_simple_of SDocument k
  | TyString => is_simple_of SString k
  | TyInteger => is_simple_of SInteger k
  | TyByte => is_simple_of SByte k
  | TyShort => is_simple_of SShort k
  | TyLong => is_simple_of SLong k
  | TyFloat => is_simple_of SFloat k
  | TyDouble => is_simple_of SDouble k
  | TyBigDecimal => is_simple_of SBigDecimal k
  | TyBigInteger => is_simple_of SBigInteger k
  | TyTimestamp => is_simple_of STimestamp k
  | TyList => match k with KList _ => true | _ => false end
  | TySet => match k with KSet _ => true | _ => false end
  | TyMap => match k with KMap _ _ => true | _ => false end
  | TyStructure => match k with KStructure _ => true | _ => false end
  | TyUnion => match k with KUnion _ => true | _ => false end
  | TyService => match k with KService _ => true | _ => false end
  | TyOperation => match k with KOperation _ => true | _ => false end
  | TyResource => match k with KResource _ => true | _ => false end
  | TyMember => false
  end.

Section WithHasher.
  Context `{Hasher}.
  (** [query_by_shape_type], evaluate.rs:73-102. The [Members] arm is never reached from [query]
      (no expression makes such a projection); in it [member_name().as_ref().unwrap()] panics on a
      shape id.  *)
  Definition retain_members (m : model) (ids : list shape_id) : result (list shape_id) :=
    fold_right (fun id acc =>
      l <- acc ;;
      match model_shape m (sid_shape_only id) with
      | Some s => match sid_member id with Some n => Ok (if ts_has_member s n then id :: l else l) | None => Panic end
      | None => Ok l
      end) (Ok []) ids.
  Definition query_by_shape_type (t : shape_type) (p : projection) (m : model) : result projection :=
    match p with
    | PrMembers ids => l <- retain_members m ids ;; Ok (PrShapes l)
    | PrShapes ids =>
        Ok (PrShapes (filter (fun id => match model_shape m id with Some s => match_by_shape_type t s | None => false end) ids))
    | _ => Ok PrEmpty
    end.
  (** [query_one], evaluate.rs:49-71; the other four kinds of expressions are [unimplemented!()],
      104-135. The line printed to standard output at 54 is not modelled. *)
  Definition query_one (e : expr) (p : projection) (m : model) : result projection :=
    match e with
    | XShapeType t => query_by_shape_type t p m
    | XAttribute _ | XScoped _ | XNeighbor _ | XFunction _ _ => Panic
    | XDefine _ _ | XReference _ => Ok p
    end.
  (** [query], evaluate.rs:29-35, from [Projection::from(model)], projection.rs:44-46. *)
  Definition query (sel : selector) (m : model) : result projection :=
    fold_left (fun acc e => p <- acc ;; query_one e p m) sel (Ok (PrShapes (shape_names m))).
End WithHasher.
