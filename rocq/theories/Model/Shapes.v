(** Model of atelier-core/src/model/shapes/{mod,simple,aggregate,service}.rs. *)
From Verif.Model Require Export Values Identity.

(** [Simple], simple.rs:17-45. *)
Inductive simple :=
| SBlob | SBoolean | SDocument | SString | SByte | SShort | SInteger | SLong | SFloat | SDouble
| SBigInteger | SBigDecimal | STimestamp.

(** Derived [PartialEq for Simple], simple.rs:17. *)
Definition simple_eqb (a b : simple) : bool :=
  match a, b with
  | SBlob, SBlob | SBoolean, SBoolean | SDocument, SDocument | SString, SString | SByte, SByte
  | SShort, SShort | SInteger, SInteger | SLong, SLong | SFloat, SFloat | SDouble, SDouble
  | SBigInteger, SBigInteger | SBigDecimal, SBigDecimal | STimestamp, STimestamp => true
  | _, _ => false
  end.

(** [Display for Simple], simple.rs:51-73 with the constants of syntax.rs:36-72. *)
Definition simple_display (s : simple) : str :=
  match s with
  | SBlob => lit "blob" | SBoolean => lit "boolean" | SDocument => lit "document"
  | SString => lit "string" | SByte => lit "byte" | SShort => lit "short"
  | SInteger => lit "integer" | SLong => lit "long" | SFloat => lit "float"
  | SDouble => lit "double" | SBigInteger => lit "bigInteger" | SBigDecimal => lit "bigDecimal"
  | STimestamp => lit "timestamp"
  end.

(** [FromStr for Simple], simple.rs:75-96: the arms in source order. *)
Definition simple_from_str (s : str) : result simple :=
  if str_eqb s (lit "blob") then Ok SBlob
  else if str_eqb s (lit "boolean") then Ok SBoolean
  else if str_eqb s (lit "document") then Ok SDocument
  else if str_eqb s (lit "string") then Ok SString
  else if str_eqb s (lit "byte") then Ok SByte
  else if str_eqb s (lit "short") then Ok SShort
  else if str_eqb s (lit "integer") then Ok SInteger
  else if str_eqb s (lit "long") then Ok SLong
  else if str_eqb s (lit "float") then Ok SFloat
  else if str_eqb s (lit "double") then Ok SDouble
  else if str_eqb s (lit "bigInteger") then Ok SBigInteger
  else if str_eqb s (lit "bigDecimal") then Ok SBigDecimal
  else if str_eqb s (lit "timestamp") then Ok STimestamp
  else Err (EInvalidSimpleShape s).

(** [AppliedTraits = HashMap<ShapeID, Option<Value>>], shapes/mod.rs:42-47. *)
Notation traits := (list (shape_id * option value)).

(** [MemberShape], aggregate.rs:15-20. *)
Record member_shape := MS { ms_id : str; ms_traits : traits; ms_target : shape_id }.

(** [ListOrSet], aggregate.rs:26-29, is its member; [Map], 35-39, is its key and value;
    [StructureOrUnion { members: HashMap<Identifier, MemberShape> }], 45-48, is its map. *)
Notation members := (list (str * member_shape)).

(** [Service], service.rs:12-18. *)
Record service := Service {
  sv_version : str;
  sv_operations : list shape_id;
  sv_resources : list shape_id;
  sv_renames : list (shape_id * str) }.

(** [Operation], service.rs:23-28. *)
Record operation := Operation {
  op_input : option shape_id;
  op_output : option shape_id;
  op_errors : list shape_id }.

(** [Resource], service.rs:33-45. *)
Record resource := Resource {
  rs_identifiers : list (str * shape_id);
  rs_create : option shape_id;
  rs_put : option shape_id;
  rs_read : option shape_id;
  rs_update : option shape_id;
  rs_delete : option shape_id;
  rs_list : option shape_id;
  rs_operations : list shape_id;
  rs_collection_operations : list shape_id;
  rs_resources : list shape_id }.

(** [ShapeKind], shapes/mod.rs:245-270. *)
Inductive shape_kind :=
| KSimple (s : simple)
| KList (m : member_shape)
| KSet (m : member_shape)
| KMap (k v : member_shape)
| KStructure (ms : members)
| KUnion (ms : members)
| KService (s : service)
| KOperation (o : operation)
| KResource (r : resource)
| KUnresolved.

(** [TopLevelShape], shapes/mod.rs:234-239. *)
Record shape := Shape { ts_id : shape_id; ts_traits : traits; ts_body : shape_kind }.

(** [ShapeKind::is_unresolved] etc., shapes/mod.rs:334-345, delegated at 450-459. *)
Definition is_unresolved (k : shape_kind) : bool := match k with KUnresolved => true | _ => false end.
Definition is_operation (k : shape_kind) : bool := match k with KOperation _ => true | _ => false end.
Definition is_resource (k : shape_kind) : bool := match k with KResource _ => true | _ => false end.
Definition is_service (k : shape_kind) : bool := match k with KService _ => true | _ => false end.

Section WithHasher.
  Context `{Hasher}.

  (** ** Traits *)

  (** [merge_traits], shapes/mod.rs:544-569. *)
  Definition merge_traits (id : shape_id) (l r : option value) : result (option value) :=
    match l, r with
    | Some (VArray a), Some (VArray b) =>
        match a, b with
        | [], _ => Ok (Some (VArray b))
        | _, [] => Ok (Some (VArray a))
        | _, _ => Ok (Some (VArray (a ++ b)))
        end
    | _, _ => if option_eqb value_eqb l r then Ok l else Err (EMergeTraitConflict id)
    end.

  (** [HasTraits::trait_named], shapes/mod.rs:71-73, [has_trait], 60-62, [has_traits], 54-56. *)
  Definition trait_named (id : shape_id) (ts : traits) : option (option value) := hm_get sid_key_eqb id ts.
  Definition has_trait (id : shape_id) (ts : traits) : bool := hm_contains sid_key_eqb id ts.
  Definition has_traits (ts : traits) : bool := match ts with [] => false | _ => true end.

  (** [apply_with_value] of [has_traits_impl!], shapes/mod.rs:287-301; shared by [TopLevelShape]
      (396) and [MemberShape] (aggregate.rs:60). Returns the traits afterwards and the result. *)
  Definition apply_with_value (ts : traits) (id : shape_id) (v : option value) : traits * result unit :=
    if sid_is_member id then (ts, Err (EShapeIDExpected id))
    else match trait_named id ts with
         | Some old =>
             match merge_traits id old v with
             | Ok new => (hm_insert sid_key_eqb id new ts, Ok tt)
             | Err e => (ts, Err e)
             | Panic => (ts, Panic)
             end
         | None => (hm_insert sid_key_eqb id v ts, Ok tt)
         end.

  (** [HasTraits::append_traits], shapes/mod.rs:97-102, and [copy_traits], model/mod.rs:305-310:
      one by one in iteration order, stopping at the first error. *)
  Fixpoint append_traits (ts : traits) (from : traits) : traits * result unit :=
    match from with
    | [] => (ts, Ok tt)
    | (id, v) :: from' =>
        match apply_with_value ts id v with
        | (ts', Ok _) => append_traits ts' from'
        | (ts', r) => (ts', r)
        end
    end.

  (** [HasTraits::remove_trait], shapes/mod.rs:105-107. *)
  Definition remove_trait (id : shape_id) (ts : traits) : traits := hm_remove sid_key_eqb id ts.

  (** ** Members *)

  (** [StructureOrUnion::has_member], aggregate.rs:202-204 (inverted in the code). *)
  Definition su_has_member (ms : members) (n : str) : bool := negb (hm_contains ident_key_eqb n ms).
  (** [StructureOrUnion::member], aggregate.rs:207-209. *)
  Definition su_member (ms : members) (n : str) : option member_shape := hm_get ident_key_eqb n ms.
  (** [StructureOrUnion::add_a_member], aggregate.rs:226-228. *)
  Definition su_add_member (m : member_shape) (ms : members) : members :=
    hm_insert ident_key_eqb (ms_id m) m ms.
  (** [StructureOrUnion::with_members], aggregate.rs:186-194. *)
  Definition su_with_members (l : list member_shape) : members :=
    fold_left (fun ms m => su_add_member m ms) l [].
  (** [StructureOrUnion::remove_member], aggregate.rs:212-214. *)
  Definition su_remove_member (n : str) (ms : members) : members := hm_remove ident_key_eqb n ms.

  (** [Resource::has_identifier], service.rs:173-175 (inverted in the code). *)
  Definition rs_has_identifier (r : resource) (n : str) : bool :=
    negb (hm_contains ident_key_eqb n (rs_identifiers r)).
  (** [Resource::identifier], service.rs:179-181. *)
  Definition rs_identifier (r : resource) (n : str) : option shape_id :=
    hm_get ident_key_eqb n (rs_identifiers r).

  (** [TopLevelShape::member], shapes/mod.rs:488-521. *)
  Definition ts_member (s : shape) (n : str) : option member_shape :=
    match ts_body s with
    | KList m | KSet m => if ident_eqb n (lit "member") then Some m else None
    | KMap k v => if ident_eqb n (lit "key") then Some k
                  else if ident_eqb n (lit "value") then Some v else None
    | KStructure ms | KUnion ms => su_member ms n
    | _ => None
    end.
  (** [TopLevelShape::has_member], shapes/mod.rs:481-483. *)
  Definition ts_has_member (s : shape) (n : str) : bool :=
    match ts_member s n with Some _ => true | None => false end.

  (** ** Equality *)

  (** [[ShapeID] == [ShapeID]] of [Vec]. *)
  Fixpoint list_eqb {A} (e : A -> A -> bool) (a b : list A) : bool :=
    match a, b with
    | [], [] => true
    | x :: a', y :: b' => e x y && list_eqb e a' b'
    | _, _ => false
    end.

  (** Derived [PartialEq] of [Service], [Operation], [Resource], service.rs:12, 23, 33. *)
  Definition service_eqb (a b : service) : bool :=
    str_eqb (sv_version a) (sv_version b)
    && list_eqb sid_eqb (sv_operations a) (sv_operations b)
    && list_eqb sid_eqb (sv_resources a) (sv_resources b)
    && hm_eqb sid_key_eqb ident_eqb (sv_renames a) (sv_renames b).
  Definition operation_eqb (a b : operation) : bool :=
    option_eqb sid_eqb (op_input a) (op_input b)
    && option_eqb sid_eqb (op_output a) (op_output b)
    && list_eqb sid_eqb (op_errors a) (op_errors b).
  Definition resource_eqb (a b : resource) : bool :=
    hm_eqb ident_key_eqb sid_eqb (rs_identifiers a) (rs_identifiers b)
    && option_eqb sid_eqb (rs_create a) (rs_create b)
    && option_eqb sid_eqb (rs_put a) (rs_put b)
    && option_eqb sid_eqb (rs_read a) (rs_read b)
    && option_eqb sid_eqb (rs_update a) (rs_update b)
    && option_eqb sid_eqb (rs_delete a) (rs_delete b)
    && option_eqb sid_eqb (rs_list a) (rs_list b)
    && list_eqb sid_eqb (rs_operations a) (rs_operations b)
    && list_eqb sid_eqb (rs_collection_operations a) (rs_collection_operations b)
    && list_eqb sid_eqb (rs_resources a) (rs_resources b).

  (** Derived [PartialEq] of trait maps, [MemberShape] (aggregate.rs:15), [ShapeKind]
      (shapes/mod.rs:245), [TopLevelShape] (234). *)
  Definition traits_eqb (a b : traits) : bool := hm_eqb sid_key_eqb (option_eqb value_eqb) a b.
  Definition ms_eqb (a b : member_shape) : bool :=
    ident_eqb (ms_id a) (ms_id b) && traits_eqb (ms_traits a) (ms_traits b)
    && sid_eqb (ms_target a) (ms_target b).
  Definition kind_eqb (a b : shape_kind) : bool :=
    match a, b with
    | KSimple x, KSimple y => simple_eqb x y
    | KList x, KList y | KSet x, KSet y => ms_eqb x y
    | KMap k v, KMap k' v' => ms_eqb k k' && ms_eqb v v'
    | KStructure x, KStructure y | KUnion x, KUnion y => hm_eqb ident_key_eqb ms_eqb x y
    | KService x, KService y => service_eqb x y
    | KOperation x, KOperation y => operation_eqb x y
    | KResource x, KResource y => resource_eqb x y
    | KUnresolved, KUnresolved => true
    | _, _ => false
    end.
  Definition shape_eqb (a b : shape) : bool :=
    sid_eqb (ts_id a) (ts_id b) && traits_eqb (ts_traits a) (ts_traits b)
    && kind_eqb (ts_body a) (ts_body b).

  (** [MemberShape::equal_without_traits], aggregate.rs:54-58. *)
  Definition ms_equal_without_traits (a b : member_shape) : bool :=
    ident_eqb (ms_id a) (ms_id b) && sid_eqb (ms_target a) (ms_target b).

  (** The [keys().all(...)] of shapes/mod.rs:363-367 and 371-375: stops at the first [false], and
      [unwrap]s the lookup in both maps. *)
  Fixpoint all_members_equal (l r : members) (ks : list str) : result bool :=
    match ks with
    | [] => Ok true
    | k :: ks' =>
        match su_member l k, su_member r k with
        | Some a, Some b => if ms_equal_without_traits a b then all_members_equal l r ks' else Ok false
        | _, _ => Panic
        end
    end.
  Definition members_equal (l r : members) : result bool :=
    if Nat.eqb (length l) (length r) then all_members_equal l r (hm_keys l) else Ok false.

  (** [TopLevelShape::equal_without_traits], shapes/mod.rs:349-384. *)
  Definition equal_without_traits (a b : shape) : result bool :=
    if sid_eqb (ts_id a) (ts_id b)
    then match ts_body a, ts_body b with
         | KSimple x, KSimple y => Ok (simple_eqb x y)
         | KList x, KList y => Ok (ms_equal_without_traits x y)
         | KSet x, KSet y => Ok (ms_equal_without_traits x y)
         | KMap k v, KMap k' v' => Ok (ms_equal_without_traits k k' && ms_equal_without_traits v v')
         | KStructure x, KStructure y => members_equal x y
         | KUnion x, KUnion y => members_equal x y
         | KService x, KService y => Ok (service_eqb x y)
         | KOperation x, KOperation y => Ok (operation_eqb x y)
         | KResource x, KResource y => Ok (resource_eqb x y)
         | KUnresolved, KUnresolved => Ok true
         | _, _ => Ok false
         end
    else Ok false.
End WithHasher.
