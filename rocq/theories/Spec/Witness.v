(** Concrete hashers and models used by the non-vacuity examples and by refutations. *)
From Verif.Model Require Import SemModel.
From Verif.Spec Require Import ModelSpec.

(** Everything collides: keys match exactly when they are [==]. *)
Definition zero_hasher : Hasher := {| hash_str := fun _ => 0%Z; hash_sid := fun _ => 0%Z |}.
(** Looks at the first byte of the (shape) name: enough to tell [Foo] from [foo]. *)
Definition byte_hasher : Hasher :=
  {| hash_str := fun s => match s with c :: _ => Z.of_N (ch_N c) | [] => 0%Z end;
     hash_sid := fun i => match sid_name i with c :: _ => Z.of_N (ch_N c) | [] => 0%Z end |}.

Definition ex_ns : str := "example.motd".
Definition ex_id (n : string) : shape_id := SID ex_ns n None.
Definition api_id (n : string) : shape_id := SID "smithy.api" n None.
Definition ex_member (n : string) (t : shape_id) : str * member_shape := (lit n, MS n [] t).

Definition motd_date : shape :=
  Shape (ex_id "Date") [(api_id "pattern", Some (VString "[0-9]+"))] (KSimple SString).
Definition motd_input : shape :=
  Shape (ex_id "GetMessageInput") [] (KStructure [ex_member "date" (ex_id "Date")]).
Definition motd_output : shape :=
  Shape (ex_id "GetMessageOutput") []
    (KStructure [ex_member "message" (api_id "String"); ex_member "day" (ex_id "Date")]).
Definition motd_error : shape :=
  Shape (ex_id "BadDateValue") [(api_id "error", Some (VString "client")); (api_id "deprecated", None)]
    (KStructure [ex_member "errorMessage" (api_id "String")]).
Definition motd_op : shape :=
  Shape (ex_id "GetMessage") [(api_id "readonly", None)]
    (KOperation (Operation (Some (ex_id "GetMessageInput")) (Some (ex_id "GetMessageOutput")) [ex_id "BadDateValue"])).
Definition motd_resource : shape :=
  Shape (ex_id "Message") []
    (KResource (Resource [(lit "date", ex_id "Date")] None None (Some (ex_id "GetMessage")) None None None [] [] [])).
Definition motd_service : shape :=
  Shape (ex_id "MessageOfTheDay") [(api_id "documentation", Some (VString "Provides a message"))]
    (KService (Service "2020-06-21" [] [ex_id "Message"] [])).
Definition motd_unresolved : shape := Shape (api_id "String") [] KUnresolved.

Definition motd : model :=
  Model V10 [(lit "domain", VString "motd"); (lit "owners", VObject [(lit "team", VNumber (NInteger 7))])]
    (map (fun s => (ts_id s, s))
       [motd_date; motd_input; motd_output; motd_error; motd_op; motd_resource; motd_service; motd_unresolved]).

(** A second file of the same service: shares some shapes, resolves one, adds others. *)
Definition motd2 : model :=
  Model V10 [(lit "domain", VString "motd"); (lit "build", VBoolean true)]
    (map (fun s => (ts_id s, s))
       [Shape (ex_id "Date") [(api_id "title", Some (VString "date"))] (KSimple SString);
        Shape (api_id "String") [] (KSimple SString);
        Shape (ex_id "Tags") [] (KList (MS "member" [] (api_id "String")))]).

Ltac solve_in :=
  repeat match goal with
         | h : In _ (_ :: _) |- _ => cbn [In map] in h; destruct h as [h|h]
         | h : In _ (map _ _) |- _ => cbn [In map] in h
         | h : _ \/ _ |- _ => destruct h as [h|h]
         | h : In _ [] |- _ => destruct h
         | h : False |- _ => destruct h
         | h : (_, _) = (_, _) |- _ => injection h as <- <-
         end.
Ltac solve_distinct := cbn [map distinct m_shapes m_metadata fst snd];
  repeat match goal with |- _ /\ _ => split | |- True => exact I end;
  try (intros k' v' HI; solve_in; vm_compute; reflexivity).

(** Well-formedness of literal values, shapes and models. *)
Ltac solve_ok_step :=
  cbv beta; cbn [fst snd ts_traits ts_body ts_id m_shapes m_metadata map body_ok sv_renames rs_identifiers];
  lazymatch goal with
  | |- shape_ok _ => split
  | |- traits_ok _ => split
  | |- body_ok _ => progress cbn [body_ok]
  | |- Forall _ [] => apply Forall_nil
  | |- Forall _ (_ :: _) => apply Forall_cons
  | |- value_ok (VString _) => apply vo_string
  | |- value_ok (VNumber _) => apply vo_number
  | |- value_ok (VBoolean _) => apply vo_bool
  | |- value_ok VNone => apply vo_none
  | |- value_ok (VArray _) => apply vo_array
  | |- value_ok (VObject _) => apply vo_object
  | |- distinct _ [] => exact I
  | |- distinct _ (_ :: _) => solve_distinct
  | |- _ /\ _ => split
  | |- True => exact I
  | |- _ = _ => reflexivity
  end.
Ltac solve_ok := repeat solve_ok_step; try (intros; solve_in; vm_compute; reflexivity).
Ltac solve_model_ok d :=
  split; [split; [|split]|split];
  [ let HI := fresh "HI" in intros k s HI; unfold d in HI; cbn [m_shapes map] in HI;
    solve_in; (split; [reflexivity|let C := fresh "C" in intros C; first [exfalso; apply C; reflexivity|reflexivity]])
  | unfold d; cbn [m_shapes map]; solve_ok
  | unfold d; cbn [m_metadata]; solve_ok
  | unfold d; cbn [m_shapes map];
    autounfold with witness; solve_ok
  | unfold d; cbn [m_metadata]; solve_ok ].
Create HintDb witness.
#[export] Hint Unfold motd_date motd_input motd_output motd_error motd_op motd_resource motd_service motd_unresolved ex_member : witness.
