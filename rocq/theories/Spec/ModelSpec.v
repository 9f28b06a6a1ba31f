(** Specification vocabulary for the semantic model: when values are equal, when shapes have the
    same structure, when duplicates can be combined, when a model is well formed, and histories. *)
From Verif.Model Require Import SemModel.
From Verif.Spec Require Export MapSpec.

(** ** Names, compared without regard to ASCII case *)
Definition same_name (a b : str) : Prop := lower a = lower b.
Definition same_id (a b : shape_id) : Prop :=
  same_name (sid_ns a) (sid_ns b) /\ same_name (sid_name a) (sid_name b)
  /\ opt_rel same_name (sid_member a) (sid_member b).

(** ** Values *)

(** Numeric equality of floats given by their bits: NaN equals nothing, the two zeros are equal. *)
Definition same_float (a b : Z) : Prop :=
  f64_is_nan a = false /\ f64_is_nan b = false
  /\ (a = b \/ (f64_is_zero a = true /\ f64_is_zero b = true)).

Definition lookup (k : str) (m : list (str * value)) : option value := hm_get str_eqb k m.

(** Arrays are equal elementwise, objects when they have the same keys with equal values. *)
Inductive same_value : value -> value -> Prop :=
| sv_array l r : Forall2 same_value l r -> same_value (VArray l) (VArray r)
| sv_object l r :
    (forall k, lookup k l = None <-> lookup k r = None) ->
    (forall k v w, lookup k l = Some v -> lookup k r = Some w -> same_value v w) ->
    same_value (VObject l) (VObject r)
| sv_int n : same_value (VNumber (NInteger n)) (VNumber (NInteger n))
| sv_float a b : same_float a b -> same_value (VNumber (NFloat a)) (VNumber (NFloat b))
| sv_bool b : same_value (VBoolean b) (VBoolean b)
| sv_string s : same_value (VString s) (VString s)
| sv_none : same_value VNone VNone.

(** Every object inside the value is a map. *)
Inductive value_ok : value -> Prop :=
| vo_array l : Forall value_ok l -> value_ok (VArray l)
| vo_object m : distinct str_eqb m -> Forall (fun kv => value_ok (snd kv)) m -> value_ok (VObject m)
| vo_number n : value_ok (VNumber n)
| vo_bool b : value_ok (VBoolean b)
| vo_string s : value_ok (VString s)
| vo_none : value_ok VNone.

Definition same_trait_value : option value -> option value -> Prop := opt_rel same_value.

Definition is_array_value (v : value) : Prop := exists l, v = VArray l.

(** Smithy's conflict resolution for traits and metadata: arrays are concatenated, equal values are
    kept (the one that was there first), anything else is a conflict. *)
Inductive combine_value : value -> value -> value -> Prop :=
| cv_arrays x y : combine_value (VArray x) (VArray y) (VArray (x ++ y))
| cv_equal a b : ~ (is_array_value a /\ is_array_value b) -> same_value a b -> combine_value a b a.
Inductive combine_trait : option value -> option value -> option value -> Prop :=
| ct_none : combine_trait None None None
| ct_some a b c : combine_value a b c -> combine_trait (Some a) (Some b) (Some c).

Section WithHasher.
  Context `{Hasher}.

  (** ** Structure of shapes, ignoring traits *)
  Definition same_member (a b : member_shape) : Prop :=
    same_name (ms_id a) (ms_id b) /\ same_id (ms_target a) (ms_target b).
  Definition same_members (a b : members) : Prop :=
    forall n, opt_rel same_member (su_member a n) (su_member b n).
  Definition same_service (a b : service) : Prop :=
    sv_version a = sv_version b
    /\ Forall2 same_id (sv_operations a) (sv_operations b)
    /\ Forall2 same_id (sv_resources a) (sv_resources b)
    /\ (forall i, opt_rel same_name (hm_get sid_key_eqb i (sv_renames a)) (hm_get sid_key_eqb i (sv_renames b))).
  Definition same_operation (a b : operation) : Prop :=
    opt_rel same_id (op_input a) (op_input b) /\ opt_rel same_id (op_output a) (op_output b)
    /\ Forall2 same_id (op_errors a) (op_errors b).
  Definition same_resource (a b : resource) : Prop :=
    (forall n, opt_rel same_id (rs_identifier a n) (rs_identifier b n))
    /\ opt_rel same_id (rs_create a) (rs_create b) /\ opt_rel same_id (rs_put a) (rs_put b)
    /\ opt_rel same_id (rs_read a) (rs_read b) /\ opt_rel same_id (rs_update a) (rs_update b)
    /\ opt_rel same_id (rs_delete a) (rs_delete b) /\ opt_rel same_id (rs_list a) (rs_list b)
    /\ Forall2 same_id (rs_operations a) (rs_operations b)
    /\ Forall2 same_id (rs_collection_operations a) (rs_collection_operations b)
    /\ Forall2 same_id (rs_resources a) (rs_resources b).
  Inductive same_structure : shape_kind -> shape_kind -> Prop :=
  | ss_simple s : same_structure (KSimple s) (KSimple s)
  | ss_list a b : same_member a b -> same_structure (KList a) (KList b)
  | ss_set a b : same_member a b -> same_structure (KSet a) (KSet b)
  | ss_map k v k' v' : same_member k k' -> same_member v v' -> same_structure (KMap k v) (KMap k' v')
  | ss_structure a b : same_members a b -> same_structure (KStructure a) (KStructure b)
  | ss_union a b : same_members a b -> same_structure (KUnion a) (KUnion b)
  | ss_service a b : same_service a b -> same_structure (KService a) (KService b)
  | ss_operation a b : same_operation a b -> same_structure (KOperation a) (KOperation b)
  | ss_resource a b : same_resource a b -> same_structure (KResource a) (KResource b)
  | ss_unresolved : same_structure KUnresolved KUnresolved.

  (** ** Well-formedness: all maps are maps, traits are applied by shape (not member) id *)
  Definition traits_ok (ts : traits) : Prop :=
    distinct sid_key_eqb ts
    /\ Forall (fun t => sid_member (fst t) = None
                        /\ match snd t with Some v => value_ok v | None => True end) ts.
  Definition body_ok (b : shape_kind) : Prop :=
    match b with
    | KStructure ms | KUnion ms => distinct ident_key_eqb ms
    | KService s => distinct sid_key_eqb (sv_renames s)
    | KResource r => distinct ident_key_eqb (rs_identifiers r)
    | _ => True
    end.
  Definition shape_ok (s : shape) : Prop := traits_ok (ts_traits s) /\ body_ok (ts_body s).

  (** The key invariant of a model: shapes are stored under their own id, keys are distinct, only
      unresolved references may have a member id. *)
  Definition keys_ok (m : model) : Prop :=
    (forall k s, In (k, s) (m_shapes m) ->
       k = ts_id s /\ (sid_member k <> None -> ts_body s = KUnresolved))
    /\ distinct sid_key_eqb (m_shapes m)
    /\ distinct str_eqb (m_metadata m).
  Definition model_ok (m : model) : Prop :=
    keys_ok m
    /\ Forall (fun e => shape_ok (snd e)) (m_shapes m)
    /\ Forall (fun e => value_ok (snd e)) (m_metadata m).

  (** ** Histories *)
  Inductive model_op :=
  | OpAddShape (s : shape)
  | OpMerge (other : model)
  | OpAddMetadata (k : str) (v : value)
  | OpRemoveShape (id : shape_id)
  | OpRemoveMetadata (k : str).
  (** The state after a call, whether it succeeded or not. *)
  Definition run_op (m : model) (o : model_op) : model :=
    match o with
    | OpAddShape s => fst (add_shape m s)
    | OpMerge other => fst (merge m other)
    | OpAddMetadata k v => fst (add_metadata m k v)
    | OpRemoveShape id => remove_shape m id
    | OpRemoveMetadata k => remove_metadata m k
    end.
  Definition run_ops (ops : list model_op) (m : model) : model := fold_left run_op ops m.

  (** The two halves of the Hash/Eq contract a correct [Hash] would satisfy. *)
  Definition hash_respects_eq : Prop :=
    forall a b : shape_id, same_id a b -> hash_sid a = hash_sid b.

  (** ** Merging two shapes with the same id *)
  Definition merged_traits (old new result : traits) : Prop :=
    forall t,
      match trait_named t old, trait_named t new with
      | Some a, Some b => exists c, trait_named t result = Some c /\ combine_trait a b c
      | Some a, None => trait_named t result = Some a
      | None, x => trait_named t result = x
      end.
  Definition merged_body (old new : shape_kind) : shape_kind :=
    match old with KUnresolved => new | _ => old end.
  Definition merged_shape (old new result : shape) : Prop :=
    ts_id result = ts_id old
    /\ ts_body result = merged_body (ts_body old) (ts_body new)
    /\ merged_traits (ts_traits old) (ts_traits new) (ts_traits result).
  (** When two shapes (resp. trait maps) with the same id can be merged. *)
  Definition traits_compatible (a b : traits) : Prop :=
    forall t x y, trait_named t a = Some x -> trait_named t b = Some y -> exists z, combine_trait x y z.
  Definition bodies_compatible (a b : shape_kind) : Prop :=
    a = KUnresolved \/ b = KUnresolved \/ same_structure a b.
  Definition shapes_compatible (a b : shape) : Prop :=
    bodies_compatible (ts_body a) (ts_body b) /\ traits_compatible (ts_traits a) (ts_traits b).
  Definition models_compatible (a b : model) : Prop :=
    (forall k x y, metadata_value a k = Some x -> metadata_value b k = Some y -> exists z, combine_value x y z)
    /\ (forall id x y, model_shape a id = Some x -> model_shape b id = Some y -> shapes_compatible x y).

  (** Two models describing the same thing, up to the traits of members (which merging ignores):
      same metadata, same ids, same bodies and same traits. *)
  Definition eq_or {A} (R : A -> A -> Prop) (a b : A) : Prop := a = b \/ R a b.
  Definition similar_shape (a b : shape) : Prop :=
    same_id (ts_id a) (ts_id b)
    /\ eq_or same_structure (ts_body a) (ts_body b)
    /\ (forall t, opt_rel (eq_or same_trait_value) (trait_named t (ts_traits a)) (trait_named t (ts_traits b))).
  Definition similar_model (a b : model) : Prop :=
    m_version a = m_version b
    /\ (forall k, opt_rel (eq_or same_value) (metadata_value a k) (metadata_value b k))
    /\ (forall id, opt_rel similar_shape (model_shape a id) (model_shape b id)).
End WithHasher.

(** A value that merging with itself does not change: equal to itself and not a non-empty array. *)
Definition merge_stable (v : value) : Prop :=
  same_value v v /\ (forall l, v = VArray l -> l = []).
Definition stable_traits (ts : traits) : Prop :=
  Forall (fun t => match snd t with Some v => merge_stable v | None => True end) ts.
Definition stable_model (m : model) : Prop :=
  Forall (fun e => merge_stable (snd e)) (m_metadata m)
  /\ Forall (fun e => stable_traits (ts_traits (snd e))) (m_shapes m).

(** No key, and no trait of a common shape, has an array value in both models. *)
Definition no_array_clash `{Hasher} (a b : model) : Prop :=
  (forall k x y, metadata_value a k = Some x -> metadata_value b k = Some y ->
     ~ (is_array_value x /\ is_array_value y))
  /\ (forall id s1 s2 t x y, model_shape a id = Some s1 -> model_shape b id = Some s2 ->
        trait_named t (ts_traits s1) = Some (Some x) -> trait_named t (ts_traits s2) = Some (Some y) ->
        ~ (is_array_value x /\ is_array_value y)).

(** Two structures (or unions) with equally many members but different member names. *)
Definition names_differ `{Hasher} (a b : shape_kind) : Prop :=
  match a, b with
  | KStructure l, KStructure r | KUnion l, KUnion r =>
      length l = length r /\ exists n m, In (n, m) l /\ su_member r n = None
  | _, _ => False
  end.

(** ** What an interrupted merge may leave behind *)
(** An entry is as it was, or the entry of the other side has been taken over or combined in. *)
Definition taken {A} (combine : A -> A -> A -> Prop) (old new result : option A) : Prop :=
  result = old
  \/ match old, new with
     | Some a, Some b => exists c, result = Some c /\ combine a b c
     | None, _ => result = new
     | Some _, None => False
     end.
(** A shape into which some of the traits of another have been merged. *)
Definition partly_merged `{Hasher} (old new result : shape) : Prop :=
  ts_id result = ts_id old
  /\ ts_body result = merged_body (ts_body old) (ts_body new)
  /\ (ts_body old = KUnresolved \/ ts_body new = KUnresolved \/ same_structure (ts_body old) (ts_body new))
  /\ forall t, taken combine_trait (trait_named t (ts_traits old)) (trait_named t (ts_traits new)) (trait_named t (ts_traits result)).
