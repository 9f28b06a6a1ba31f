(** Specification of shape URNs, from the module documentation of atelier-rdf/src/urn.rs:6-22. *)
From Verif.Model Require Import Base.

(** urn ":" smithy ":" namespace ":" shape [ "/" member ]. *)
Definition urn_text (i : shape_id) : str :=
  lit "urn:smithy:" ++ sid_ns i ++ ":"%char :: sid_name i ++
  match sid_member i with Some m => "/"%char :: m | None => [] end.
