(** When two values, shapes and models are equal, by what can be looked up in them (C65). *)
From Verif.Model Require Import SemModel.
From Verif.Spec Require Export ModelSpec.

Section WithHasher.
  Context `{Hasher}.

  (** The same traits with equal values. *)
  Definition equal_traits (a b : traits) : Prop :=
    forall t, opt_rel same_trait_value (trait_named t a) (trait_named t b).
  (** Members: the same name, target and traits. *)
  Definition equal_member (a b : member_shape) : Prop :=
    same_name (ms_id a) (ms_id b) /\ same_id (ms_target a) (ms_target b) /\ equal_traits (ms_traits a) (ms_traits b).
  Definition equal_members (a b : members) : Prop := forall n, opt_rel equal_member (su_member a n) (su_member b n).
  Inductive equal_body : shape_kind -> shape_kind -> Prop :=
  | eb_simple s : equal_body (KSimple s) (KSimple s)
  | eb_list a b : equal_member a b -> equal_body (KList a) (KList b)
  | eb_set a b : equal_member a b -> equal_body (KSet a) (KSet b)
  | eb_map k v k' v' : equal_member k k' -> equal_member v v' -> equal_body (KMap k v) (KMap k' v')
  | eb_structure a b : equal_members a b -> equal_body (KStructure a) (KStructure b)
  | eb_union a b : equal_members a b -> equal_body (KUnion a) (KUnion b)
  | eb_service a b : same_service a b -> equal_body (KService a) (KService b)
  | eb_operation a b : same_operation a b -> equal_body (KOperation a) (KOperation b)
  | eb_resource a b : same_resource a b -> equal_body (KResource a) (KResource b)
  | eb_unresolved : equal_body KUnresolved KUnresolved.
  Definition equal_shape (a b : shape) : Prop :=
    same_id (ts_id a) (ts_id b) /\ equal_traits (ts_traits a) (ts_traits b) /\ equal_body (ts_body a) (ts_body b).
  (** Models: the same version, the same metadata keys with equal values, the same ids with equal shapes. *)
  Definition equal_model (a b : model) : Prop :=
    m_version a = m_version b
    /\ (forall k, opt_rel same_value (metadata_value a k) (metadata_value b k))
    /\ (forall id, opt_rel equal_shape (model_shape a id) (model_shape b id)).

  (** The members of a body, whatever its kind. *)
  Definition members_in (b : shape_kind) : list member_shape :=
    match b with
    | KList m | KSet m => [m]
    | KMap k v => [k; v]
    | KStructure ms | KUnion ms => map snd ms
    | _ => []
    end.

  (** Every map is a map: all a real [HashMap] guarantees, and nothing more. *)
  Definition traits_maps (ts : traits) : Prop :=
    distinct sid_key_eqb ts /\ (forall t v, In (t, Some v) ts -> value_ok v).
  Definition shape_maps (s : shape) : Prop :=
    traits_maps (ts_traits s) /\ body_ok (ts_body s) /\ (forall m, In m (members_in (ts_body s)) -> traits_maps (ms_traits m)).
  Definition model_maps (m : model) : Prop :=
    distinct str_eqb (m_metadata m) /\ distinct sid_key_eqb (m_shapes m)
    /\ (forall k v, In (k, v) (m_metadata m) -> value_ok v)
    /\ (forall k s, In (k, s) (m_shapes m) -> shape_maps s).
End WithHasher.

(** A NaN somewhere in a value, in a map of traits, in a shape, in a model. *)
Inductive has_nan : value -> Prop :=
| hn_float b : f64_is_nan b = true -> has_nan (VNumber (NFloat b))
| hn_array l v : In v l -> has_nan v -> has_nan (VArray l)
| hn_object m k v : In (k, v) m -> has_nan v -> has_nan (VObject m).
Definition traits_nan (ts : traits) : Prop := exists t v, In (t, Some v) ts /\ has_nan v.
Definition shape_nan (s : shape) : Prop :=
  traits_nan (ts_traits s) \/ exists m, In m (members_in (ts_body s)) /\ traits_nan (ms_traits m).
Definition model_nan (m : model) : Prop :=
  (exists k v, In (k, v) (m_metadata m) /\ has_nan v) \/ (exists k s, In (k, s) (m_shapes m) /\ shape_nan s).
