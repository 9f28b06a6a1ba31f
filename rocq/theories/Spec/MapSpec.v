(** What it means for a list of entries to be a map, and for two optional values to be related. *)
From Verif.Model Require Import HashMap.

(** No two entries have matching keys: the shape of every real [HashMap]. *)
Fixpoint distinct {K V} (keq : K -> K -> bool) (m : list (K * V)) : Prop :=
  match m with
  | [] => True
  | (k, _) :: m' => (forall k' v', In (k', v') m' -> keq k' k = false) /\ distinct keq m'
  end.

(** Both absent, or both present and related. *)
Definition opt_rel {A B} (R : A -> B -> Prop) (x : option A) (y : option B) : Prop :=
  match x, y with
  | None, None => True
  | Some a, Some b => R a b
  | _, _ => False
  end.
