(** When two diagrams, or two RDF descriptions, differ only in the order of their parts. *)
From Verif.Model Require Import SemModel.
From Verif.Spec Require Import UmlSpec RdfSpec.
From Coq Require Export Permutation.

(** Items of a class diagram: classes may list their traits and fields in another order. *)
Inductive same_item : item -> item -> Prop :=
| si_class k n mk a b : Permutation a b -> same_item (Class k n mk a) (Class k n mk b)
| si_same i : same_item i i.
(** The same items, in another order. *)
Definition same_items (a b : list item) : Prop := exists c, Permutation a c /\ Forall2 same_item c b.

(** Descriptions of things: the same properties, with the same values. *)
Inductive same_obj : obj -> obj -> Prop :=
| so_term t : same_obj (OTerm t) (OTerm t)
| so_node a b :
    (forall p o, In (p, o) a -> exists o', In (p, o') b /\ same_obj o o') ->
    (forall p o', In (p, o') b -> exists o, In (p, o) a /\ same_obj o o') -> same_obj (ONode a) (ONode b).
