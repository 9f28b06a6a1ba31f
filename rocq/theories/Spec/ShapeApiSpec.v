(** What histories of calls on the bodies of shapes mean. *)
From Verif.Model Require Import ShapeApi.
From Verif.Spec Require Export MapSpec FluentSpec.

(** ** Lists of ids *)
Inductive list_event := Replace (l : list shape_id) | Add (x : shape_id) | Append (l : list shape_id) | Remove (x : shape_id).
Definition brings (e : list_event) : list shape_id :=
  match e with Replace l | Append l => l | Add x => [x] | Remove _ => [] end.
(** Everything an event brings stays, in order, unless a later event replaces the list or removes
    an equal id. *)
Definition gone (x : shape_id) (later : list list_event) : Prop :=
  exists e, In e later /\ match e with Replace _ => True | Remove y => sid_eqb x y = true | _ => False end.
(** [keeps P l k]: [k] is [l] without what does not satisfy [P]. *)
Inductive keeps (P : shape_id -> Prop) : list shape_id -> list shape_id -> Prop :=
| kp_nil : keeps P [] []
| kp_in x l k : P x -> keeps P l k -> keeps P (x :: l) (x :: k)
| kp_out x l k : ~ P x -> keeps P l k -> keeps P (x :: l) k.
Inductive survivors : list list_event -> list shape_id -> Prop :=
| sv_none : survivors [] []
| sv_event e later kept rest :
    keeps (fun x => ~ gone x later) (brings e) kept -> survivors later rest -> survivors (e :: later) (kept ++ rest).

(** ** Maps *)
Inductive map_event (K V : Type) := Reset (m : list (K * V)) | Insert (k : K) (v : V) | Delete (k : K).
Arguments Reset {K V} m. Arguments Insert {K V} k v. Arguments Delete {K V} k.
(** What an event says about a key, if it is about that key. *)
Definition word {K V} (keq : K -> K -> bool) (k : K) (e : map_event K V) : list (option V) :=
  match e with
  | Reset m => [hm_get keq k m]
  | Insert k' v => if keq k' k then [Some v] else []
  | Delete k' => if keq k' k then [None] else []
  end.
(** The last word about a key. *)
Definition said {K V} (keq : K -> K -> bool) (k : K) (es : list (map_event K V)) : option V :=
  match latest (flat_map (word keq k) es) with Some o => o | None => None end.
(** Only real maps can be passed to a method. *)
Definition real {K V} (keq : K -> K -> bool) (e : map_event K V) : Prop :=
  match e with Reset m => distinct keq m | _ => True end.

Fixpoint run {S C} (step : S -> C -> result S) (s : S) (cs : list C) : result S :=
  match cs with
  | [] => Ok s
  | c :: cs' => match step s c with Ok s' => run step s' cs' | Err e => Err e | Panic => Panic end
  end.

(** ** [Service] *)
Inductive service_method :=
| MVersion (v : str)
| MOperations (e : list_event) | MOperationShape (x : shape)
| MResources (e : list_event) | MResourceShape (x : shape)
| MRenames (e : map_event shape_id str).
Definition service_do `{Hasher} (s : service) (c : service_method) : result service :=
  match c with
  | MVersion v => sv_set_version s v
  | MOperations (Replace l) => Ok (sv_set_operations s l)
  | MOperations (Add x) => Ok (sv_add_operation s x)
  | MOperations (Append l) => Ok (sv_append_operations s l)
  | MOperations (Remove x) => Ok (sv_remove_operation s x)
  | MOperationShape x => Ok (sv_add_operation_shape s x)
  | MResources (Replace l) => Ok (sv_set_resources s l)
  | MResources (Add x) => Ok (sv_add_resource s x)
  | MResources (Append l) => Ok (sv_append_resources s l)
  | MResources (Remove x) => Ok (sv_remove_resource s x)
  | MResourceShape x => Ok (sv_add_resource_shape s x)
  | MRenames (Reset m) => Ok (sv_set_renames s m)
  | MRenames (Insert k v) => Ok (fst (sv_insert_rename_shape s k v))
  | MRenames (Delete k) => Ok (fst (sv_remove_rename_shape s k))
  end.
(** [Service::new(v)] and then the calls. *)
Definition service_after `{Hasher} (v : str) (cs : list service_method) : result service :=
  match service_new v with Ok s => run service_do s cs | Err e => Err e | Panic => Panic end.
Definition if_operation (x : shape) : list list_event := match ts_body x with KOperation _ => [Add (ts_id x)] | _ => [] end.
Definition if_resource (x : shape) : list list_event := match ts_body x with KResource _ => [Add (ts_id x)] | _ => [] end.
Definition m_versions (cs : list service_method) : list str := flat_map (fun c => match c with MVersion v => [v] | _ => [] end) cs.
Definition m_operations (cs : list service_method) : list list_event :=
  flat_map (fun c => match c with MOperations e => [e] | MOperationShape x => if_operation x | _ => [] end) cs.
Definition m_resources (cs : list service_method) : list list_event :=
  flat_map (fun c => match c with MResources e => [e] | MResourceShape x => if_resource x | _ => [] end) cs.
Definition m_renames (cs : list service_method) : list (map_event shape_id str) :=
  flat_map (fun c => match c with MRenames e => [e] | _ => [] end) cs.

(** ** [Operation] *)
Inductive direction := Input | Output.
Inductive operation_method :=
| MSet (d : direction) (x : shape_id) | MUnset (d : direction) | MSetShape (d : direction) (x : shape)
| MErrors (e : list_event) | MErrorShape (x : shape).
Definition operation_do (o : operation) (c : operation_method) : result operation :=
  Ok match c with
     | MSet Input x => op_set_input o x
     | MSet Output x => op_set_output o x
     | MUnset Input => op_unset_input o
     | MUnset Output => op_unset_output o
     | MSetShape Input x => op_set_input_shape o x
     | MSetShape Output x => op_set_output_shape o x
     | MErrors (Replace l) => op_set_errors o l
     | MErrors (Add x) => op_add_error o x
     | MErrors (Append l) => op_append_errors o l
     | MErrors (Remove x) => op_remove_error o x
     | MErrorShape x => op_add_error_shape o x
     end.
(** A shape that can be the input, output or error of an operation. *)
Definition can_be_data (x : shape) : bool :=
  match ts_body x with KOperation _ | KResource _ | KService _ | KUnresolved => false | _ => true end.
Definition direction_eqb (a b : direction) : bool := match a, b with Input, Input | Output, Output => true | _, _ => false end.
Definition m_direction (d : direction) (cs : list operation_method) : list (option shape_id) :=
  flat_map (fun c => match c with
                     | MSet d' x => if direction_eqb d d' then [Some x] else []
                     | MUnset d' => if direction_eqb d d' then [None] else []
                     | MSetShape d' x => if direction_eqb d d' && can_be_data x then [Some (ts_id x)] else []
                     | _ => [] end) cs.
Definition m_errors (cs : list operation_method) : list list_event :=
  flat_map (fun c => match c with MErrors e => [e] | MErrorShape x => if can_be_data x then [Add (ts_id x)] else [] | _ => [] end) cs.
(** The last thing said about a field that starts out empty. *)
Definition settled {A} (l : list (option A)) : option A := match latest l with Some o => o | None => None end.

(** ** [Resource] *)
Inductive resource_method :=
| MLife (a : lifecycle) (x : shape_id) | MLifeUnset (a : lifecycle) | MLifeShape (a : lifecycle) (x : shape)
| MGroup (g : group) (e : list_event) | MGroupShape (g : group) (x : shape)
| MIdentifiers (e : map_event str shape_id).
Definition resource_do `{Hasher} (r : resource) (c : resource_method) : result resource :=
  Ok match c with
     | MLife LCreate x => rs_set_create r x | MLife LPut x => rs_set_put r x | MLife LRead x => rs_set_read r x
     | MLife LUpdate x => rs_set_update r x | MLife LDelete x => rs_set_delete r x | MLife LList x => rs_set_list r x
     | MLifeUnset LCreate => rs_unset_create r | MLifeUnset LPut => rs_unset_put r | MLifeUnset LRead => rs_unset_read r
     | MLifeUnset LUpdate => rs_unset_update r | MLifeUnset LDelete => rs_unset_delete r | MLifeUnset LList => rs_unset_list r
     | MLifeShape LCreate x => rs_set_create_operation_shape r x | MLifeShape LPut x => rs_set_put_operation_shape r x
     | MLifeShape LRead x => rs_set_read_operation_shape r x | MLifeShape LUpdate x => rs_set_update_operation_shape r x
     | MLifeShape LDelete x => rs_set_delete_operation_shape r x | MLifeShape LList x => rs_set_list_operation_shape r x
     | MGroup GOperations (Replace l) => rs_set_operations r l | MGroup GOperations (Add x) => rs_add_operation r x
     | MGroup GOperations (Append l) => rs_append_operations r l | MGroup GOperations (Remove x) => rs_remove_operation r x
     | MGroup GCollectionOperations (Replace l) => rs_set_collection_operations r l
     | MGroup GCollectionOperations (Add x) => rs_add_collection_operation r x
     | MGroup GCollectionOperations (Append l) => rs_append_collection_operations r l
     | MGroup GCollectionOperations (Remove x) => rs_remove_collection_operation r x
     | MGroup GResources (Replace l) => rs_set_resources r l | MGroup GResources (Add x) => rs_add_resource r x
     | MGroup GResources (Append l) => rs_append_resources r l | MGroup GResources (Remove x) => rs_remove_resource r x
     | MGroupShape GOperations x => rs_add_operation_shape r x
     | MGroupShape GCollectionOperations x => rs_add_collection_operation_shape r x
     | MGroupShape GResources x => rs_add_resource_shape r x
     | MIdentifiers (Reset m) => rs_set_identifiers r m
     | MIdentifiers (Insert n t) => fst (rs_add_identifier r n t)
     | MIdentifiers (Delete n) => fst (rs_remove_identifier r n)
     end.
Definition life_eqb (a b : lifecycle) : bool :=
  match a, b with
  | LCreate, LCreate | LPut, LPut | LRead, LRead | LUpdate, LUpdate | LDelete, LDelete | LList, LList => true
  | _, _ => false
  end.
Definition group_is (a b : group) : bool :=
  match a, b with
  | GOperations, GOperations | GCollectionOperations, GCollectionOperations | GResources, GResources => true
  | _, _ => false
  end.
Definition life_of (a : lifecycle) (r : resource) : option shape_id :=
  match a with
  | LCreate => rs_create r | LPut => rs_put r | LRead => rs_read r
  | LUpdate => rs_update r | LDelete => rs_delete r | LList => rs_list r
  end.
Definition members_of (g : group) (r : resource) : list shape_id :=
  match g with GOperations => rs_operations r | GCollectionOperations => rs_collection_operations r | GResources => rs_resources r end.
Definition m_life (a : lifecycle) (cs : list resource_method) : list (option shape_id) :=
  flat_map (fun c => match c with
                     | MLife a' x => if life_eqb a a' then [Some x] else []
                     | MLifeUnset a' => if life_eqb a a' then [None] else []
                     | MLifeShape a' x => if life_eqb a a' then match ts_body x with KOperation _ => [Some (ts_id x)] | _ => [] end else []
                     | _ => [] end) cs.
Definition m_group (g : group) (cs : list resource_method) : list list_event :=
  flat_map (fun c => match c with
                     | MGroup g' e => if group_is g g' then [e] else []
                     | MGroupShape g' x => if group_is g g' then match g with GResources => if_resource x | _ => if_operation x end else []
                     | _ => [] end) cs.
Definition m_identifiers (cs : list resource_method) : list (map_event str shape_id) :=
  flat_map (fun c => match c with MIdentifiers e => [e] | _ => [] end) cs.

(** ** Structures and unions *)
Inductive members_method := MMember (n : str) (t : shape_id) | MAMember (m : member_shape) | MDrop (n : str).
Definition members_do `{Hasher} (ms : members) (c : members_method) : result members :=
  Ok match c with
     | MMember n t => su_add_member_target ms n t
     | MAMember m => su_add_member m ms
     | MDrop n => su_remove_member n ms
     end.
Definition m_members (cs : list members_method) : list (map_event str member_shape) :=
  map (fun c => match c with MMember n t => Insert n (MS n [] t) | MAMember m => Insert (ms_id m) m | MDrop n => Delete n end) cs.

(** ** Lists, sets and maps: the name of a member, up to case; the calls on a map *)
Definition named (n : str) (m : member_shape) : Prop := ident_eqb (ms_id m) n = true.
Inductive map_method := MKey (m : member_shape) | MValue (m : member_shape).
Definition map_do (kv : member_shape * member_shape) (c : map_method) : result (member_shape * member_shape) :=
  match c with MKey m => map_set_key kv m | MValue m => map_set_value kv m end.
Definition keys_set (cs : list map_method) : list member_shape := flat_map (fun c => match c with MKey m => [m] | _ => [] end) cs.
Definition values_set (cs : list map_method) : list member_shape := flat_map (fun c => match c with MValue m => [m] | _ => [] end) cs.
Definition misnamed (kn vn : str) (c : map_method) : Prop := match c with MKey m => ~ named kn m | MValue m => ~ named vn m end.
