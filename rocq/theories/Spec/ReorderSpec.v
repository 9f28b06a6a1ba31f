(** The same model with its hash maps iterated in other orders, at every level. *)
From Verif.Model Require Import SemModel.
From Verif.Spec Require Export MapSpec.
From Coq Require Export Permutation.

(** Same keys with related values, in another order. *)
Definition reordered {K V} (R : V -> V -> Prop) (a b : list (K * V)) : Prop :=
  exists a', Permutation a a' /\ Forall2 (fun x y => fst x = fst y /\ R (snd x) (snd y)) a' b.

Inductive reorder_value : value -> value -> Prop :=
| rv_array l r : Forall2 reorder_value l r -> reorder_value (VArray l) (VArray r)
| rv_object l l' r : Permutation l l' ->
    Forall2 (fun x y => fst x = fst y /\ reorder_value (snd x) (snd y)) l' r -> reorder_value (VObject l) (VObject r)
| rv_same v : reorder_value v v.

Definition reorder_trait_value : option value -> option value -> Prop := opt_rel reorder_value.
Definition reorder_traits : traits -> traits -> Prop := reordered reorder_trait_value.
Definition reorder_member (a b : member_shape) : Prop :=
  ms_id a = ms_id b /\ ms_target a = ms_target b /\ reorder_traits (ms_traits a) (ms_traits b).
Definition reorder_service (a b : service) : Prop :=
  sv_version a = sv_version b /\ sv_operations a = sv_operations b /\ sv_resources a = sv_resources b
  /\ Permutation (sv_renames a) (sv_renames b).
Definition reorder_resource (a b : resource) : Prop :=
  Permutation (rs_identifiers a) (rs_identifiers b)
  /\ rs_create a = rs_create b /\ rs_put a = rs_put b /\ rs_read a = rs_read b /\ rs_update a = rs_update b
  /\ rs_delete a = rs_delete b /\ rs_list a = rs_list b /\ rs_operations a = rs_operations b
  /\ rs_collection_operations a = rs_collection_operations b /\ rs_resources a = rs_resources b.
Inductive reorder_body : shape_kind -> shape_kind -> Prop :=
| rb_list a b : reorder_member a b -> reorder_body (KList a) (KList b)
| rb_set a b : reorder_member a b -> reorder_body (KSet a) (KSet b)
| rb_map k v k' v' : reorder_member k k' -> reorder_member v v' -> reorder_body (KMap k v) (KMap k' v')
| rb_structure a b : reordered reorder_member a b -> reorder_body (KStructure a) (KStructure b)
| rb_union a b : reordered reorder_member a b -> reorder_body (KUnion a) (KUnion b)
| rb_service a b : reorder_service a b -> reorder_body (KService a) (KService b)
| rb_resource a b : reorder_resource a b -> reorder_body (KResource a) (KResource b)
| rb_same b : reorder_body b b.
Definition reorder_shape (a b : shape) : Prop :=
  ts_id a = ts_id b /\ reorder_traits (ts_traits a) (ts_traits b) /\ reorder_body (ts_body a) (ts_body b).
Definition reorder_model (a b : model) : Prop :=
  m_version a = m_version b /\ reordered reorder_value (m_metadata a) (m_metadata b)
  /\ reordered reorder_shape (m_shapes a) (m_shapes b).
