(** The methods through which a program changes the bodies of shapes:
    atelier-core/src/model/shapes/{service,aggregate}.rs and the member macros of
    atelier-core/src/macros.rs. *)
From Verif.Model Require Export Shapes.

(** [array_member!], macros.rs:164-199: [set_xs] (178-180, [to_vec]), [add_x] (183-185, [push]),
    [append_xs] (188-192, the [add_x] of each), [remove_x] (195-197, [retain(|item| item != x)]);
    [has_xs] (168-170) and [xs] (173-175). *)
Definition array_has {A} (l : list A) : bool := match l with [] => false | _ => true end.
Definition array_set {A} (_ new : list A) : list A := new.
Definition array_add {A} (l : list A) (x : A) : list A := l ++ [x].
Fixpoint array_append {A} (l new : list A) : list A :=
  match new with [] => l | x :: new' => array_append (array_add l x) new' end.
Definition array_remove {A} (eqb : A -> A -> bool) (l : list A) (x : A) : list A :=
  filter (fun item => negb (eqb item x)) l.

(** [optional_member!], macros.rs:139-162: [has_x] (143-145), [set_x] (153-155), [unset_x] (158-160). *)
Definition optional_has {A} (o : option A) : bool := match o with Some _ => true | None => false end.
Definition optional_set {A} (_ : option A) (x : A) : option A := Some x.
Definition optional_unset {A} (_ : option A) : option A := None.

Section WithHasher.
  Context `{Hasher}.

  (** ** [Service], service.rs:51-92 *)

  (** [Service::new], 52-60. *)
  Definition service_new (version : str) : result service :=
    match version with [] => Panic | _ => Ok (Service version [] [] []) end.
  (** [Service::set_version], 68-71. *)
  Definition sv_set_version (s : service) (v : str) : result service :=
    match v with [] => Panic | _ => Ok (Service v (sv_operations s) (sv_resources s) (sv_renames s)) end.
  Definition sv_with_operations (s : service) l := Service (sv_version s) l (sv_resources s) (sv_renames s).
  Definition sv_with_resources (s : service) l := Service (sv_version s) (sv_operations s) l (sv_renames s).
  Definition sv_with_renames (s : service) l := Service (sv_version s) (sv_operations s) (sv_resources s) l.
  (** [array_member! { operations, operation, ShapeID }], 73. *)
  Definition sv_set_operations (s : service) l := sv_with_operations s (array_set (sv_operations s) l).
  Definition sv_add_operation (s : service) x := sv_with_operations s (array_add (sv_operations s) x).
  Definition sv_append_operations (s : service) l := sv_with_operations s (array_append (sv_operations s) l).
  Definition sv_remove_operation (s : service) x := sv_with_operations s (array_remove sid_eqb (sv_operations s) x).
  (** [Service::add_operation_shape], 76-80. *)
  Definition sv_add_operation_shape (s : service) (x : shape) : service :=
    if is_operation (ts_body x) then sv_add_operation s (ts_id x) else s.
  (** [array_member! { resources, resource, ShapeID }], 82. *)
  Definition sv_set_resources (s : service) l := sv_with_resources s (array_set (sv_resources s) l).
  Definition sv_add_resource (s : service) x := sv_with_resources s (array_add (sv_resources s) x).
  Definition sv_append_resources (s : service) l := sv_with_resources s (array_append (sv_resources s) l).
  Definition sv_remove_resource (s : service) x := sv_with_resources s (array_remove sid_eqb (sv_resources s) x).
  (** [Service::add_resource_shape], 85-89. *)
  Definition sv_add_resource_shape (s : service) (x : shape) : service :=
    if is_resource (ts_body x) then sv_add_resource s (ts_id x) else s.
  (** [hash_member! { renames, rename_shape, ShapeID, local_name, Identifier }], 91, with
      macros.rs:201-239: setting, [has_rename_shape], [contains_rename_shape] (which returns the
      value), and inserting and removing, which also return what was there. *)
  Definition sv_set_renames (s : service) l := sv_with_renames s l.
  Definition sv_has_rename_shape (s : service) k : bool := hm_contains sid_key_eqb k (sv_renames s).
  Definition sv_contains_rename_shape (s : service) k : option str := hm_get sid_key_eqb k (sv_renames s).
  Definition sv_insert_rename_shape (s : service) k v : service * option str :=
    (sv_with_renames s (hm_insert sid_key_eqb k v (sv_renames s)), hm_get sid_key_eqb k (sv_renames s)).
  Definition sv_remove_rename_shape (s : service) k : service * option str :=
    (sv_with_renames s (hm_remove sid_key_eqb k (sv_renames s)), hm_get sid_key_eqb k (sv_renames s)).

  (** ** [Operation], service.rs:96-147 *)

  (** [Default for Operation], 96-104. *)
  Definition operation_default : operation := Operation None None [].
  Definition op_with_input (o : operation) i := Operation i (op_output o) (op_errors o).
  Definition op_with_output (o : operation) i := Operation (op_input o) i (op_errors o).
  Definition op_with_errors (o : operation) l := Operation (op_input o) (op_output o) l.
  (** [optional_member! { input, ShapeID }], 107, and [output], 120. *)
  Definition op_set_input (o : operation) x := op_with_input o (optional_set (op_input o) x).
  Definition op_unset_input (o : operation) := op_with_input o (optional_unset (op_input o)).
  Definition op_set_output (o : operation) x := op_with_output o (optional_set (op_output o) x).
  Definition op_unset_output (o : operation) := op_with_output o (optional_unset (op_output o)).
  (** The condition of 111-114, 124-127, 137-140. *)
  Definition not_service_shape (k : shape_kind) : bool :=
    negb (is_operation k || is_resource k || is_service k || is_unresolved k).
  (** [Operation::set_input_shape], 110-118, and [set_output_shape], 123-131. *)
  Definition op_set_input_shape (o : operation) (x : shape) : operation :=
    if not_service_shape (ts_body x) then op_set_input o (ts_id x) else o.
  Definition op_set_output_shape (o : operation) (x : shape) : operation :=
    if not_service_shape (ts_body x) then op_set_output o (ts_id x) else o.
  (** [array_member! { errors, error, ShapeID }], 133. *)
  Definition op_set_errors (o : operation) l := op_with_errors o (array_set (op_errors o) l).
  Definition op_add_error (o : operation) x := op_with_errors o (array_add (op_errors o) x).
  Definition op_append_errors (o : operation) l := op_with_errors o (array_append (op_errors o) l).
  Definition op_remove_error (o : operation) x := op_with_errors o (array_remove sid_eqb (op_errors o) x).
  (** [Operation::add_error_shape], 136-144. *)
  Definition op_add_error_shape (o : operation) (x : shape) : operation :=
    if not_service_shape (ts_body x) then op_add_error o (ts_id x) else o.

  (** ** [Resource], service.rs:149-294 *)

  (** [Default for Resource], 149-164. *)
  Definition resource_default : resource := Resource [] None None None None None None [] [] [].
  Definition rs_with_identifiers r l := Resource l (rs_create r) (rs_put r) (rs_read r) (rs_update r) (rs_delete r) (rs_list r) (rs_operations r) (rs_collection_operations r) (rs_resources r).
  Definition rs_with_create r x := Resource (rs_identifiers r) x (rs_put r) (rs_read r) (rs_update r) (rs_delete r) (rs_list r) (rs_operations r) (rs_collection_operations r) (rs_resources r).
  Definition rs_with_put r x := Resource (rs_identifiers r) (rs_create r) x (rs_read r) (rs_update r) (rs_delete r) (rs_list r) (rs_operations r) (rs_collection_operations r) (rs_resources r).
  Definition rs_with_read r x := Resource (rs_identifiers r) (rs_create r) (rs_put r) x (rs_update r) (rs_delete r) (rs_list r) (rs_operations r) (rs_collection_operations r) (rs_resources r).
  Definition rs_with_update r x := Resource (rs_identifiers r) (rs_create r) (rs_put r) (rs_read r) x (rs_delete r) (rs_list r) (rs_operations r) (rs_collection_operations r) (rs_resources r).
  Definition rs_with_delete r x := Resource (rs_identifiers r) (rs_create r) (rs_put r) (rs_read r) (rs_update r) x (rs_list r) (rs_operations r) (rs_collection_operations r) (rs_resources r).
  Definition rs_with_list r x := Resource (rs_identifiers r) (rs_create r) (rs_put r) (rs_read r) (rs_update r) (rs_delete r) x (rs_operations r) (rs_collection_operations r) (rs_resources r).
  Definition rs_with_operations r l := Resource (rs_identifiers r) (rs_create r) (rs_put r) (rs_read r) (rs_update r) (rs_delete r) (rs_list r) l (rs_collection_operations r) (rs_resources r).
  Definition rs_with_collection_operations r l := Resource (rs_identifiers r) (rs_create r) (rs_put r) (rs_read r) (rs_update r) (rs_delete r) (rs_list r) (rs_operations r) l (rs_resources r).
  Definition rs_with_resources r l := Resource (rs_identifiers r) (rs_create r) (rs_put r) (rs_read r) (rs_update r) (rs_delete r) (rs_list r) (rs_operations r) (rs_collection_operations r) l.

  (** [Resource::has_identifiers], 168-170. *)
  Definition rs_has_identifiers (r : resource) : bool := match rs_identifiers r with [] => false | _ => true end.
  (** [remove_identifier], 184-186, [add_identifier], 189-191, [set_identifiers], 194-196. *)
  Definition rs_remove_identifier (r : resource) n : resource * option shape_id :=
    (rs_with_identifiers r (hm_remove ident_key_eqb n (rs_identifiers r)), hm_get ident_key_eqb n (rs_identifiers r)).
  Definition rs_add_identifier (r : resource) n t : resource * option shape_id :=
    (rs_with_identifiers r (hm_insert ident_key_eqb n t (rs_identifiers r)), hm_get ident_key_eqb n (rs_identifiers r)).
  Definition rs_set_identifiers (r : resource) l : resource := rs_with_identifiers r l.
  (** [has_any_resource_operation], 205-212. *)
  Definition rs_has_any_resource_operation (r : resource) : bool :=
    optional_has (rs_create r) || optional_has (rs_put r) || optional_has (rs_read r)
    || optional_has (rs_update r) || optional_has (rs_delete r) || optional_has (rs_list r).
  (** [optional_member!] at 214, 223, 232, 241, 250, 259, and the [set_x_operation_shape] after
      each. *)
  Definition rs_set_create r x := rs_with_create r (optional_set (rs_create r) x).
  Definition rs_unset_create r := rs_with_create r (optional_unset (rs_create r)).
  Definition rs_set_create_operation_shape r (x : shape) := if is_operation (ts_body x) then rs_set_create r (ts_id x) else r.
  Definition rs_set_put r x := rs_with_put r (optional_set (rs_put r) x).
  Definition rs_unset_put r := rs_with_put r (optional_unset (rs_put r)).
  Definition rs_set_put_operation_shape r (x : shape) := if is_operation (ts_body x) then rs_set_put r (ts_id x) else r.
  Definition rs_set_read r x := rs_with_read r (optional_set (rs_read r) x).
  Definition rs_unset_read r := rs_with_read r (optional_unset (rs_read r)).
  Definition rs_set_read_operation_shape r (x : shape) := if is_operation (ts_body x) then rs_set_read r (ts_id x) else r.
  Definition rs_set_update r x := rs_with_update r (optional_set (rs_update r) x).
  Definition rs_unset_update r := rs_with_update r (optional_unset (rs_update r)).
  Definition rs_set_update_operation_shape r (x : shape) := if is_operation (ts_body x) then rs_set_update r (ts_id x) else r.
  Definition rs_set_delete r x := rs_with_delete r (optional_set (rs_delete r) x).
  Definition rs_unset_delete r := rs_with_delete r (optional_unset (rs_delete r)).
  Definition rs_set_delete_operation_shape r (x : shape) := if is_operation (ts_body x) then rs_set_delete r (ts_id x) else r.
  Definition rs_set_list r x := rs_with_list r (optional_set (rs_list r) x).
  Definition rs_unset_list r := rs_with_list r (optional_unset (rs_list r)).
  Definition rs_set_list_operation_shape r (x : shape) := if is_operation (ts_body x) then rs_set_list r (ts_id x) else r.
  (** [array_member!] at 268, 277, 286 and the [add_x_shape] after each. *)
  Definition rs_set_operations r l := rs_with_operations r (array_set (rs_operations r) l).
  Definition rs_add_operation r x := rs_with_operations r (array_add (rs_operations r) x).
  Definition rs_append_operations r l := rs_with_operations r (array_append (rs_operations r) l).
  Definition rs_remove_operation r x := rs_with_operations r (array_remove sid_eqb (rs_operations r) x).
  Definition rs_add_operation_shape r (x : shape) := if is_operation (ts_body x) then rs_add_operation r (ts_id x) else r.
  Definition rs_set_collection_operations r l := rs_with_collection_operations r (array_set (rs_collection_operations r) l).
  Definition rs_add_collection_operation r x := rs_with_collection_operations r (array_add (rs_collection_operations r) x).
  Definition rs_append_collection_operations r l := rs_with_collection_operations r (array_append (rs_collection_operations r) l).
  Definition rs_remove_collection_operation r x := rs_with_collection_operations r (array_remove sid_eqb (rs_collection_operations r) x).
  Definition rs_add_collection_operation_shape r (x : shape) :=
    if is_operation (ts_body x) then rs_add_collection_operation r (ts_id x) else r.
  Definition rs_set_resources r l := rs_with_resources r (array_set (rs_resources r) l).
  Definition rs_add_resource r x := rs_with_resources r (array_add (rs_resources r) x).
  Definition rs_append_resources r l := rs_with_resources r (array_append (rs_resources r) l).
  Definition rs_remove_resource r x := rs_with_resources r (array_remove sid_eqb (rs_resources r) x).
  Definition rs_add_resource_shape r (x : shape) := if is_resource (ts_body x) then rs_add_resource r (ts_id x) else r.

  (** The [has_x] of [array_member!] (macros.rs:168-170), [hash_member!] (205-207) and [optional_member!] (143-145) for
      service.rs:73, 82, 91 (services), 107, 120, 133 (operations) and 214-286 (resources). *)
  Definition sv_has_operations (s : service) : bool := array_has (sv_operations s).
  Definition sv_has_resources (s : service) : bool := array_has (sv_resources s).
  Definition sv_has_renames (s : service) : bool := array_has (sv_renames s).
  Definition op_has_input (o : operation) : bool := optional_has (op_input o).
  Definition op_has_output (o : operation) : bool := optional_has (op_output o).
  Definition op_has_errors (o : operation) : bool := array_has (op_errors o).
  Definition rs_has_create (r : resource) : bool := optional_has (rs_create r).
  Definition rs_has_put (r : resource) : bool := optional_has (rs_put r).
  Definition rs_has_read (r : resource) : bool := optional_has (rs_read r).
  Definition rs_has_update (r : resource) : bool := optional_has (rs_update r).
  Definition rs_has_delete (r : resource) : bool := optional_has (rs_delete r).
  Definition rs_has_list (r : resource) : bool := optional_has (rs_list r).
  Definition rs_has_operations (r : resource) : bool := array_has (rs_operations r).
  Definition rs_has_collection_operations (r : resource) : bool := array_has (rs_collection_operations r).
  Definition rs_has_resources (r : resource) : bool := array_has (rs_resources r).

  (** ** Aggregates, aggregate.rs *)

  (** [MemberShape::new] and [with_traits], 74-86. *)
  Definition member_new (id : str) (target : shape_id) : member_shape := MS id [] target.
  (** [MemberShape::set_target], 93-95, and [set_id], 67-69. *)
  Definition member_set_target (m : member_shape) t : member_shape := MS (ms_id m) (ms_traits m) t.
  Definition member_set_id (m : member_shape) i : member_shape := MS i (ms_traits m) (ms_target m).

  (** [ListOrSet::new], 102-106, [from], 109-112 (compares the texts exactly), [set_member],
      120-123 (compares identifiers). *)
  Definition list_new (t : shape_id) : member_shape := member_new (lit "member") t.
  Definition list_from (m : member_shape) : result member_shape :=
    if str_eqb (ms_id m) (lit "member") then Ok m else Panic.
  Definition list_set_member (l m : member_shape) : result member_shape :=
    if ident_eqb (ms_id m) (ms_id l) then Ok m else Panic.
  (** [Map::new], 130-135, [from], 138-140 (checks nothing), [set_key], 148-151, [set_value],
      159-162. *)
  Definition map_new (k v : shape_id) : member_shape * member_shape := (member_new (lit "key") k, member_new (lit "value") v).
  Definition map_from (k v : member_shape) : member_shape * member_shape := (k, v).
  Definition map_set_key (m : member_shape * member_shape) (k : member_shape) : result (member_shape * member_shape) :=
    if ident_eqb (ms_id k) (ms_id (fst m)) then Ok (k, snd m) else Panic.
  Definition map_set_value (m : member_shape * member_shape) (v : member_shape) : result (member_shape * member_shape) :=
    if ident_eqb (ms_id v) (ms_id (snd m)) then Ok (fst m, v) else Panic.

  (** [StructureOrUnion::has_members], 197-199, [add_member], 221-224. *)
  Definition su_has_members (ms : members) : bool := match ms with [] => false | _ => true end.
  Definition su_add_member_target (ms : members) (n : str) (t : shape_id) : members := su_add_member (member_new n t) ms.
End WithHasher.
