(** When the text of an error or an issue says everything about it. *)
From Verif.Model Require Import Errors.
From Verif.Spec Require Export QueriesSpec.

(** Debug forms of texts: one can tell where the form ends and what it is the form of, as with quotes and escapes. *)
Definition self_delimiting {A} (d : A -> str) : Prop :=
  forall a b x y, d a ++ x = d b ++ y -> a = b /\ x = y.
Definition no_quote (s : str) : Prop := ~ In "'"%char s.
(** Ids are valid ids, and the parts of the two texts with several parts do not contain the quote that separates them. *)
Definition readable_error (e : error_kind) : Prop :=
  match e with
  | AbsoluteShapeIDExpected id | ShapeIDExpected id | MemberIDExpected id | MergeShapeConflict id
  | MergeTraitConflict id => valid_id id
  | MergeVersionConflict v1 v2 => no_quote v1 /\ no_quote v2
  | Deserialization r l _ => no_quote r /\ no_quote l
  | _ => True
  end.
(** The reporter of an issue is one word, as the names of actions are, and the place a valid id. *)
Definition readable_issue (i : issue) : Prop :=
  ~ In " "%char (i_reporter i) /\ match i_locus i with Some id => valid_id id | None => True end.
