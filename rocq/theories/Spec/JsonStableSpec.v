(** Documents in which no hash map takes two names for the same.  Two different names can only be taken for the same if
    they differ in letter case only and their hashes collide. *)
From Verif.Model Require Import Json.
From Verif.Spec Require Export JsonSpec.

Section WithHasher.
  Context `{Hasher}.
  Definition names_apart {V} (l : list (str * V)) : Prop :=
    forall k k' v v', In (k, v) l -> In (k', v') l -> ident_key_eqb k k' = true -> k = k'.
  Definition ids_apart {V} (l : list (str * V)) : Prop :=
    forall k k' v v' i i', In (k, v) l -> In (k', v') l -> sid_from_str k = Ok i -> sid_from_str k' = Ok i' ->
      sid_key_eqb i i' = true -> k = k'.
  (** The shapes of the document, and the members of each of its shapes. *)
  Definition document_apart (j : json) : Prop :=
    ids_apart (shape_entries j)
    /\ forall k v ms, In (k, v) (shape_entries j) -> jget "members" v = Some (JObject ms) -> names_apart ms.
End WithHasher.
