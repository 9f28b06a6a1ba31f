(** What validators and linters are supposed to report, stated without their code. *)
From Verif.Model Require Import Actions.
From Verif.Spec Require Export MapSpec.

(** ** References between shapes and what they require of their target *)
Inductive needs :=
| NData       (* anything but a service, an operation or a resource *)
| NOperation
| NResource.
Definition fits (n : needs) (target : shape_kind) : Prop :=
  match n, target with
  | NData, (KService _ | KOperation _ | KResource _) => False
  | NData, _ => True
  | NOperation, KOperation _ => True
  | NResource, KResource _ => True
  | _, _ => False
  end.

Inductive refers : shape_kind -> needs -> shape_id -> Prop :=
| rf_list m : refers (KList m) NData (ms_target m)
| rf_set m : refers (KSet m) NData (ms_target m)
| rf_key k v : refers (KMap k v) NData (ms_target k)
| rf_value k v : refers (KMap k v) NData (ms_target v)
| rf_structure ms n m : In (n, m) ms -> refers (KStructure ms) NData (ms_target m)
| rf_union ms n m : In (n, m) ms -> refers (KUnion ms) NData (ms_target m)
| rf_input o t : op_input o = Some t -> refers (KOperation o) NData t
| rf_output o t : op_output o = Some t -> refers (KOperation o) NData t
| rf_error o t : In t (op_errors o) -> refers (KOperation o) NData t
| rf_service_operation s t : In t (sv_operations s) -> refers (KService s) NOperation t
| rf_service_resource s t : In t (sv_resources s) -> refers (KService s) NResource t
| rf_identifier r n t : In (n, t) (rs_identifiers r) -> refers (KResource r) NData t
| rf_create r t : rs_create r = Some t -> refers (KResource r) NOperation t
| rf_put r t : rs_put r = Some t -> refers (KResource r) NOperation t
| rf_read r t : rs_read r = Some t -> refers (KResource r) NOperation t
| rf_update r t : rs_update r = Some t -> refers (KResource r) NOperation t
| rf_delete r t : rs_delete r = Some t -> refers (KResource r) NOperation t
| rf_list_op r t : rs_list r = Some t -> refers (KResource r) NOperation t
| rf_operation r t : In t (rs_operations r) -> refers (KResource r) NOperation t
| rf_collection r t : In t (rs_collection_operations r) -> refers (KResource r) NOperation t
| rf_resource r t : In t (rs_resources r) -> refers (KResource r) NResource t.

(** The model stores [s]. *)
Definition stored (m : model) (s : shape) : Prop := exists k, In (k, s) (m_shapes m).

Section WithHasher.
  Context `{Hasher}.

  (** What is wrong with one shape, and how bad it is. *)
  Inductive offence (m : model) (s : shape) : level -> Prop :=
  | off_kind n t x : refers (ts_body s) n t -> model_shape m t = Some x -> ~ fits n (ts_body x) -> offence m s Error
  | off_missing n t : refers (ts_body s) n t -> model_shape m t = None -> sid_ns t <> lit "smithy.api" -> offence m s Warning
  | off_synonym p : ts_body s = KSimple p -> ts_traits s = [] -> offence m s Info.
End WithHasher.

(** ** Names and where they occur *)
Inductive place :=
| PDefinition           (* the id a shape is defined under *)
| PTrait                (* a trait applied to a shape *)
| PMember               (* a member of a structure or union *)
| PTarget               (* the target of such a member *)
| PMemberTrait          (* a trait applied to such a member *)
| PElementTrait         (* a trait applied to the member of a list or set, or the key or value of a map *)
| PIdentifier           (* an identifier of a resource *)
| PRename.              (* a new name in the rename table of a service *)
(** The places the linters look at. *)
Definition linted (p : place) : Prop :=
  match p with PElementTrait | PIdentifier | PRename => False | _ => True end.

Definition shape_members (b : shape_kind) : members :=
  match b with KStructure ms | KUnion ms => ms | _ => [] end.
Inductive element : shape_kind -> member_shape -> Prop :=
| el_list m : element (KList m) m
| el_set m : element (KSet m) m
| el_key k v : element (KMap k v) k
| el_value k v : element (KMap k v) v.

(** Shape ids written in a shape. *)
Inductive id_at (s : shape) : place -> shape_id -> Prop :=
| ia_definition : id_at s PDefinition (ts_id s)
| ia_trait t v : In (t, v) (ts_traits s) -> id_at s PTrait t
| ia_target n m : In (n, m) (shape_members (ts_body s)) -> id_at s PTarget (ms_target m)
| ia_member_trait n m t v : In (n, m) (shape_members (ts_body s)) -> In (t, v) (ms_traits m) -> id_at s PMemberTrait t
| ia_element_trait m t v : element (ts_body s) m -> In (t, v) (ms_traits m) -> id_at s PElementTrait t.

(** The words an id is made of: the segments of its namespace, its name, its member. *)
Inductive part_of : shape_id -> str -> Prop :=
| po_ns i n : In n (split_on dot (sid_ns i)) -> part_of i n
| po_name i : part_of i (sid_name i)
| po_member i n : sid_member i = Some n -> part_of i n.

(** [n] is written in [s] at a place; [at_id] is the id it belongs to. *)
Inductive name_at (s : shape) : place -> str -> shape_id -> Prop :=
| na_id p i n : id_at s p i -> part_of i n -> name_at s p n i
| na_member k m : In (k, m) (shape_members (ts_body s)) -> name_at s PMember (ms_id m) (ts_id s)
| na_identifier r n t : ts_body s = KResource r -> In (n, t) (rs_identifiers r) -> name_at s PIdentifier n (ts_id s)
| na_rename v i n : ts_body s = KService v -> In (i, n) (sv_renames v) -> name_at s PRename n (ts_id s).

(** ** Naming conventions: which names must be in which form, and where a violation is located *)
Inductive convention := UpperCamel | LowerCamel.
Section WithHasher2.
  Context `{Hasher}.
  Definition is_trait_definition (s : shape) : Prop :=
    trait_named (SID "smithy.api" "trait" None) (ts_traits s) <> None.
  Inductive must_follow (s : shape) : place -> convention -> str -> shape_id -> Prop :=
  | mf_shape : ~ is_trait_definition s -> must_follow s PDefinition UpperCamel (sid_name (ts_id s)) (ts_id s)
  | mf_trait : is_trait_definition s -> must_follow s PDefinition LowerCamel (sid_name (ts_id s)) (ts_id s)
  | mf_applied p t : p = PTrait \/ p = PMemberTrait \/ p = PElementTrait -> id_at s p t ->
      must_follow s p LowerCamel (sid_name t) t
  | mf_target t : id_at s PTarget t -> must_follow s PTarget UpperCamel (sid_name t) t
  | mf_member n m : In (n, m) (shape_members (ts_body s)) -> must_follow s PMember LowerCamel (ms_id m) (ts_id s).
End WithHasher2.
Definition in_form (camel mixed : str -> str) (c : convention) (n : str) : Prop :=
  match c with UpperCamel => camel n = n | LowerCamel => mixed n = n end.

(** ** Unwelcome words *)
Definition unwelcome_words : list str :=
  [lit "blacklist"; lit "kill"; lit "master"; lit "slave"; lit "whitelist"].
(** A word of the snake_case form of the name. *)
Definition has_unwelcome_word (snake : str -> str) (n w : str) : Prop :=
  In w (split_on "_"%char (snake n)) /\ In w unwelcome_words.
