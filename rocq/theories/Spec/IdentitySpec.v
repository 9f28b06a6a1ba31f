(** Specification of names, written from the ABNF of the Smithy 1.0 specification (section 2.4.1) and
    the documentation in atelier-core/src/model/identity.rs; no regular expressions. *)
From Verif.Model Require Import Base.

(** identifier_start = *"_" ALPHA ; identifier_chars = ALPHA / DIGIT / "_". *)
Definition is_identifier (s : str) : Prop :=
  exists us c rest,
    s = us ++ c :: rest
    /\ Forall (fun x => x = "_"%char) us
    /\ is_alpha c = true
    /\ Forall (fun x => is_alpha x = true \/ is_digit x = true \/ x = "_"%char) rest.

(** namespace = identifier *("." identifier). *)
Definition is_namespace (s : str) : Prop :=
  exists ids, ids <> [] /\ Forall is_identifier ids /\ s = join ["."%char] ids.

Definition valid_id (i : shape_id) : Prop :=
  is_namespace (sid_ns i) /\ is_identifier (sid_name i)
  /\ match sid_member i with Some m => is_identifier m | None => True end.

(** absolute_shape_id = namespace "#" identifier [ "$" identifier ]. *)
Definition id_text (i : shape_id) : str :=
  sid_ns i ++ "#"%char :: sid_name i ++
  match sid_member i with Some m => "$"%char :: m | None => [] end.

(** Texts in dictionary order of their bytes. *)
Definition text_before (a b : str) : Prop :=
  (exists c r, b = a ++ c :: r)
  \/ exists p x y r1 r2, a = p ++ x :: r1 /\ b = p ++ y :: r2 /\ (N_of_ascii x < N_of_ascii y)%N.
(** Ids by namespace, then shape name, then member; an id without member comes first. *)
Definition id_before (a b : shape_id) : Prop :=
  text_before (sid_ns a) (sid_ns b)
  \/ sid_ns a = sid_ns b /\ text_before (sid_name a) (sid_name b)
  \/ sid_ns a = sid_ns b /\ sid_name a = sid_name b
     /\ match sid_member a, sid_member b with
        | None, Some _ => True
        | Some x, Some y => text_before x y
        | _, None => False
        end.
