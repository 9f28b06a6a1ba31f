(** Which node of a graph is the model, and what it has. *)
From Verif.Model Require Import Rdf.

(** The graph has the statement. *)
Definition states (g : graph) (s : term) (p : iri) (o : term) : Prop := In (St s p o) (g_statements g).
(** [o] is the one and only [p] of [s]. *)
Definition the_only (g : graph) (s : term) (p : iri) (o : term) : Prop :=
  states g s p o /\ forall o', states g s p o' -> o' = o.
Definition is_a_model (g : graph) (s : term) : Prop := states g s a_type (TIri (smithy "Model")).
(** The model that is asked for: the one with the given name, or the only one there is. *)
Definition the_model (g : graph) (name : option iri) (s : term) : Prop :=
  is_a_model g s
  /\ match name with
     | Some i => s = TIri i
     | None => forall s', is_a_model g s' -> s' = s
     end.
(** Its version, as it is written. *)
Definition written_version (g : graph) (s : term) (v : str) : Prop :=
  exists d, the_only g s (smithy "smithy_version") (TLit v d).
Definition has_a_shape (g : graph) (s : term) : Prop := exists o, states g s (smithy "shape") o.
Definition known_version (v : str) : Prop := v = lit "1" \/ v = lit "1.0".
