(** Specification vocabulary: well-formedness of a model down to its members; builders that hold such values. *)
From Verif.Model Require Import SemModel Builder.
From Verif.Spec Require Export ModelSpec.
From Verif.Spec Require Import BuilderSpec.

Section WithHasher.
  Context `{Hasher}.
  (** The members of a shape. *)
  Definition body_members (b : shape_kind) : list member_shape :=
    match b with
    | KList m | KSet m => [m]
    | KMap k v => [k; v]
    | KStructure ms | KUnion ms => map snd ms
    | _ => []
    end.
  (** The members of structures and unions are stored under their own names. *)
  Definition members_named (b : shape_kind) : Prop :=
    match b with
    | KStructure ms | KUnion ms => forall k x, In (k, x) ms -> same_name k (ms_id x)
    | _ => True
    end.
  (** A shape all of whose maps are maps, its members' traits included; no trait, of the shape or of a
      member, is applied by the id of a member. *)
  Definition shape_whole (s : shape) : Prop :=
    shape_ok s /\ members_named (ts_body s) /\ Forall (fun x => traits_ok (ms_traits x)) (body_members (ts_body s)).
  Definition model_whole (m : model) : Prop :=
    model_ok m /\ Forall (fun e => shape_whole (snd e)) (m_shapes m).
End WithHasher.

(** ** What is put into a builder *)
Definition tb_good (t : trait_builder) : Prop := match tb_value t with Some v => value_ok v | None => True end.
Definition mb_good (m : member_builder) : Prop := Forall tb_good (mb_traits m).
Definition builder_members (b : builder_body) : list member_builder :=
  match b with BList m | BSet m => [m] | BMap k v => [k; v] | BStructure l | BUnion l => l | _ => [] end.
(** Every object in the value of a trait is a map; a reference names a shape, not a member. *)
Definition sb_good (s : shape_builder) : Prop :=
  Forall tb_good (sb_traits s) /\ Forall mb_good (builder_members (sb_body s))
  /\ (sb_body s = BReference -> exists q, sb_name s = Qualified q /\ sid_member q = None).
Definition op_good (o : builder_op) : Prop :=
  match o with
  | BoShape s => sb_good s
  | BoUses id => forall i, sid_from_str id = Ok i -> sid_member i = None
  | BoApply _ t => tb_good t
  | BoMetadata _ v => value_ok v
  end.
