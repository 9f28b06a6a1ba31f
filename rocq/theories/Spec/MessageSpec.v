(** The issues of validators and linters in full: what they say as well as where and how bad. *)
From Verif.Model Require Import Actions.
From Verif.Spec Require Export ActionsSpec.

(** ** References with the words the messages use for them *)
Inductive refers_as : shape_kind -> needs -> str -> shape_id -> Prop :=
| ra_list m : refers_as (KList m) NData (ms_id m) (ms_target m)
| ra_set m : refers_as (KSet m) NData (ms_id m) (ms_target m)
| ra_key k v : refers_as (KMap k v) NData (ms_id k) (ms_target k)
| ra_value k v : refers_as (KMap k v) NData (ms_id v) (ms_target v)
| ra_structure ms n m : In (n, m) ms -> refers_as (KStructure ms) NData (ms_id m) (ms_target m)
| ra_union ms n m : In (n, m) ms -> refers_as (KUnion ms) NData (ms_id m) (ms_target m)
| ra_input o t : op_input o = Some t -> refers_as (KOperation o) NData (lit "input") t
| ra_output o t : op_output o = Some t -> refers_as (KOperation o) NData (lit "output") t
| ra_error o t : In t (op_errors o) -> refers_as (KOperation o) NData (lit "errors") t
| ra_service_operation s t : In t (sv_operations s) -> refers_as (KService s) NOperation (lit "Service operation") t
| ra_service_resource s t : In t (sv_resources s) -> refers_as (KService s) NResource (lit "Service resource") t
| ra_identifier r n t : In (n, t) (rs_identifiers r) -> refers_as (KResource r) NData n t
| ra_create r t : rs_create r = Some t -> refers_as (KResource r) NOperation (lit "Resource operation 'create'") t
| ra_put r t : rs_put r = Some t -> refers_as (KResource r) NOperation (lit "Resource operation 'put'") t
| ra_read r t : rs_read r = Some t -> refers_as (KResource r) NOperation (lit "Resource operation 'read'") t
| ra_update r t : rs_update r = Some t -> refers_as (KResource r) NOperation (lit "Resource operation 'update'") t
| ra_delete r t : rs_delete r = Some t -> refers_as (KResource r) NOperation (lit "Resource operation 'delete'") t
| ra_list_op r t : rs_list r = Some t -> refers_as (KResource r) NOperation (lit "Resource operation 'list'") t
| ra_operation r t : In t (rs_operations r) -> refers_as (KResource r) NOperation (lit "Resource operation") t
| ra_collection r t : In t (rs_collection_operations r) ->
    refers_as (KResource r) NOperation (lit "Resource collection operation") t
| ra_resource r t : In t (rs_resources r) -> refers_as (KResource r) NResource (lit "Resource resource") t.

(** What is said when the target is of the wrong kind, and when there is none. *)
Definition wrong_kind (s : shape_id) (n : needs) (what : str) : str :=
  match n with
  | NData => sid_display s ++ lit " member " ++ what ++ lit " must not refer to a service, operation, resource or member."
  | NOperation => what ++ lit " must be an operation."
  | NResource => what ++ lit " must be a resource."
  end.
Definition no_such_shape (s : shape_id) (n : needs) (what : str) (t : shape_id) : str :=
  match n with NData => sid_display s ++ lit " member " | _ => [] end
  ++ what ++ lit "'s type (" ++ sid_display t ++ lit ") cannot be resolved to a shape in this model.".

Section WithHasher.
  Context `{Hasher}.
  Inductive type_issue (m : model) (s : shape) : issue -> Prop :=
  | ti_kind n what t x :
      refers_as (ts_body s) n what t -> model_shape m t = Some x -> ~ fits n (ts_body x) ->
      type_issue m s (Issue (lit "CorrectTypeReferences") Error (wrong_kind (ts_id s) n what) (Some (ts_id s)))
  | ti_missing n what t :
      refers_as (ts_body s) n what t -> model_shape m t = None -> sid_ns t <> lit "smithy.api" ->
      type_issue m s (Issue (lit "CorrectTypeReferences") Warning (no_such_shape (ts_id s) n what t) (Some (ts_id s)))
  | ti_synonym p :
      ts_body s = KSimple p -> ts_traits s = [] ->
      type_issue m s (Issue (lit "CorrectTypeReferences") Info
        (lit "The simple shape (" ++ sid_display (ts_id s)
         ++ lit ") is simply a synonym, did you mean to add any constraint traits?") (Some (ts_id s))).
End WithHasher.

(** ** Names: the form a name should have, and how the place is called *)
Definition proper (camel mixed : str -> str) (c : convention) (n : str) : str :=
  match c with UpperCamel => camel n | LowerCamel => mixed n end.
Definition naming_message (p : place) (c : convention) (form : str) : str :=
  match c with
  | UpperCamel =>
      (match p with PTarget => lit "References to" | _ => lit "Defined" end)
      ++ lit " shape names should conform to UpperCamelCase, i.e. " ++ form
  | LowerCamel =>
      (match p with PMember => lit "Member" | _ => lit "Trait" end)
      ++ lit " names should conform to lowerCamelCase, i.e. " ++ form
  end.

(** ** Unwelcome words *)
Definition unwelcome_message (w : str) : str :=
  lit "The term '" ++ w ++ lit "' is considered either insensitive, divisive, or otherwise unwelcome".
