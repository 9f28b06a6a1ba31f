(** The text of the lines that define a shape and its references. *)
From Verif.Model Require Import Lines.
From Verif.Spec Require Export ReorderSpec.

(** ** What can be read off the lines *)
(** [n] is the label under which the shape refers to [t]. *)
Inductive points_to : shape_kind -> str -> shape_id -> Prop :=
| pt_list m : points_to (KList m) (ms_id m) (ms_target m)
| pt_set m : points_to (KSet m) (ms_id m) (ms_target m)
| pt_key k v : points_to (KMap k v) (ms_id k) (ms_target k)
| pt_value k v : points_to (KMap k v) (ms_id v) (ms_target v)
| pt_structure ms n m : In (n, m) ms -> points_to (KStructure ms) (ms_id m) (ms_target m)
| pt_union ms n m : In (n, m) ms -> points_to (KUnion ms) (ms_id m) (ms_target m)
| pt_input o t : op_input o = Some t -> points_to (KOperation o) (lit "input") t
| pt_output o t : op_output o = Some t -> points_to (KOperation o) (lit "output") t
| pt_error o t : In t (op_errors o) -> points_to (KOperation o) (lit "error") t
| pt_sv_operation s t : In t (sv_operations s) -> points_to (KService s) (lit "operation") t
| pt_sv_resource s t : In t (sv_resources s) -> points_to (KService s) (lit "resource") t
| pt_create r t : rs_create r = Some t -> points_to (KResource r) (lit "create") t
| pt_put r t : rs_put r = Some t -> points_to (KResource r) (lit "put") t
| pt_read r t : rs_read r = Some t -> points_to (KResource r) (lit "read") t
| pt_update r t : rs_update r = Some t -> points_to (KResource r) (lit "update") t
| pt_delete r t : rs_delete r = Some t -> points_to (KResource r) (lit "delete") t
| pt_list_op r t : rs_list r = Some t -> points_to (KResource r) (lit "list") t
| pt_operation r t : In t (rs_operations r) -> points_to (KResource r) (lit "operation") t
| pt_collection r t : In t (rs_collection_operations r) -> points_to (KResource r) (lit "collection_operation") t
| pt_resource r t : In t (rs_resources r) -> points_to (KResource r) (lit "resource") t.

From Verif.Spec Require Import IdentitySpec.
(** Every shape id, member name and target is syntactically valid. *)
Definition names_valid (m : model) : Prop :=
  forall k s, In (k, s) (m_shapes m) ->
    valid_id (ts_id s) /\ (forall n t, points_to (ts_body s) n t -> is_identifier n /\ valid_id t).

(** The same kind of shape (and the same simple type). *)
Definition same_kind (a b : shape_kind) : Prop :=
  match a, b with
  | KSimple x, KSimple y => x = y
  | KList _, KList _ | KSet _, KSet _ | KMap _ _, KMap _ _ | KStructure _, KStructure _ | KUnion _, KUnion _
  | KService _, KService _ | KOperation _, KOperation _ | KResource _, KResource _ | KUnresolved, KUnresolved => True
  | _, _ => False
  end.

(** ** Models that differ only in what the lines do not show *)
(** As [reorder_model], and the lists of ids may be in any order. *)
Definition alike_service (a b : service) : Prop :=
  sv_version a = sv_version b /\ Permutation (sv_operations a) (sv_operations b)
  /\ Permutation (sv_resources a) (sv_resources b) /\ Permutation (sv_renames a) (sv_renames b).
Definition alike_operation (a b : operation) : Prop :=
  op_input a = op_input b /\ op_output a = op_output b /\ Permutation (op_errors a) (op_errors b).
Definition alike_resource (a b : resource) : Prop :=
  Permutation (rs_identifiers a) (rs_identifiers b)
  /\ rs_create a = rs_create b /\ rs_put a = rs_put b /\ rs_read a = rs_read b /\ rs_update a = rs_update b
  /\ rs_delete a = rs_delete b /\ rs_list a = rs_list b /\ Permutation (rs_operations a) (rs_operations b)
  /\ Permutation (rs_collection_operations a) (rs_collection_operations b) /\ Permutation (rs_resources a) (rs_resources b).
Inductive alike_body : shape_kind -> shape_kind -> Prop :=
| al_simple s : alike_body (KSimple s) (KSimple s)
| al_list a b : reorder_member a b -> alike_body (KList a) (KList b)
| al_set a b : reorder_member a b -> alike_body (KSet a) (KSet b)
| al_map k v k' v' : reorder_member k k' -> reorder_member v v' -> alike_body (KMap k v) (KMap k' v')
| al_structure a b : reordered reorder_member a b -> alike_body (KStructure a) (KStructure b)
| al_union a b : reordered reorder_member a b -> alike_body (KUnion a) (KUnion b)
| al_service a b : alike_service a b -> alike_body (KService a) (KService b)
| al_operation a b : alike_operation a b -> alike_body (KOperation a) (KOperation b)
| al_resource a b : alike_resource a b -> alike_body (KResource a) (KResource b)
| al_unresolved : alike_body KUnresolved KUnresolved.
Definition alike_shape (a b : shape) : Prop :=
  ts_id a = ts_id b /\ reorder_traits (ts_traits a) (ts_traits b) /\ alike_body (ts_body a) (ts_body b).
Definition alike_model (a b : model) : Prop :=
  m_version a = m_version b
  /\ reordered reorder_value (m_metadata a) (m_metadata b)
  /\ reordered alike_shape (m_shapes a) (m_shapes b).

(** ** Models whose lines can be read unambiguously *)
(** No floats (1.0 is written like 1) and no closing brace in the keys of objects. *)
Inductive lined_value : value -> Prop :=
| lv_array l : Forall lined_value l -> lined_value (VArray l)
| lv_object l : NoDup (map fst l) -> Forall (fun e => ~ In "}"%char (fst e) /\ lined_value (snd e)) l -> lined_value (VObject l)
| lv_integer n : lined_value (VNumber (NInteger n))
| lv_boolean b : lined_value (VBoolean b)
| lv_string s : lined_value (VString s)
| lv_none : lined_value VNone.
Definition lined_traits (ts : traits) : Prop :=
  NoDup (map fst ts)
  /\ Forall (fun t => valid_id (fst t) /\ match snd t with Some v => lined_value v | None => True end) ts.
Definition lined_member (m : member_shape) : Prop :=
  is_identifier (ms_id m) /\ valid_id (ms_target m) /\ lined_traits (ms_traits m).
Definition lined_members (ms : members) : Prop :=
  NoDup (map fst ms) /\ Forall (fun e => fst e = ms_id (snd e) /\ lined_member (snd e)) ms.
Definition valid_ids (l : list shape_id) : Prop := Forall valid_id l.
Definition valid_opt (o : option shape_id) : Prop := match o with Some i => valid_id i | None => True end.
(** The members of a map are called [key] and [value]. *)
Definition lined_body (b : shape_kind) : Prop :=
  match b with
  | KSimple _ | KUnresolved => True
  | KList m | KSet m => lined_member m
  | KMap k v => ms_id k = lit "key" /\ ms_id v = lit "value" /\ lined_member k /\ lined_member v
  | KStructure ms | KUnion ms => lined_members ms
  | KService s => valid_ids (sv_operations s) /\ valid_ids (sv_resources s) /\ valid_ids (map fst (sv_renames s))
  | KOperation o => valid_opt (op_input o) /\ valid_opt (op_output o) /\ valid_ids (op_errors o)
  | KResource r =>
      Forall (fun e => is_identifier (fst e) /\ valid_id (snd e)) (rs_identifiers r)
      /\ valid_opt (rs_create r) /\ valid_opt (rs_put r) /\ valid_opt (rs_read r) /\ valid_opt (rs_update r)
      /\ valid_opt (rs_delete r) /\ valid_opt (rs_list r) /\ valid_ids (rs_operations r)
      /\ valid_ids (rs_collection_operations r) /\ valid_ids (rs_resources r)
  end.
(** No '<' in the keys of metadata; every shape stored once, under its own id. *)
Definition lined_model (m : model) : Prop :=
  (NoDup (map fst (m_metadata m)) /\ Forall (fun e => ~ In "<"%char (fst e) /\ lined_value (snd e)) (m_metadata m))
  /\ NoDup (map fst (m_shapes m))
  /\ Forall (fun e => fst e = ts_id (snd e) /\ valid_id (ts_id (snd e)) /\ lined_traits (ts_traits (snd e))
                      /\ lined_body (ts_body (snd e))) (m_shapes m).
