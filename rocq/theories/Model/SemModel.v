(** Model of atelier-core/src/model/mod.rs: the semantic model, its queries and merging. *)
From Verif.Model Require Export Shapes.

(** [Version], lib.rs:276-280: one version; derived [PartialEq]. *)
Inductive version := V10.
Definition version_eqb (a b : version) : bool := match a, b with V10, V10 => true end.

(** [Model], model/mod.rs:26-31. *)
Record model := Model {
  m_version : version;
  m_metadata : list (str * value);
  m_shapes : list (shape_id * shape) }.

(** [Model::new], model/mod.rs:45-51. *)
Definition model_new (v : version) : model := Model v [] [].

Definition set_metadata (m : model) (x : list (str * value)) : model := Model (m_version m) x (m_shapes m).
Definition set_shapes (m : model) (x : list (shape_id * shape)) : model := Model (m_version m) (m_metadata m) x.

Section WithHasher.
  Context `{Hasher}.

  (** [Model::metadata_value], model/mod.rs:132-134; [has_metadata], 122-124;
      [has_metadata_value], 127-129 (inverted in the code). *)
  Definition metadata_value (m : model) (k : str) : option value := hm_get str_eqb k (m_metadata m).
  Definition has_metadata (m : model) : bool := match m_metadata m with [] => false | _ => true end.
  Definition has_metadata_value (m : model) (k : str) : bool := negb (hm_contains str_eqb k (m_metadata m)).

  (** [Model::add_metadata], model/mod.rs:155-171. *)
  Definition add_metadata (m : model) (k : str) (v : value) : model * result (option value) :=
    match metadata_value m k with
    | Some old =>
        match old, v with
        | VArray a, VArray b => (set_metadata m (hm_insert str_eqb k (VArray (a ++ b)) (m_metadata m)), Ok (Some old))
        | _, _ => if value_eqb old v then (m, Ok None) else (m, Err (EMergeMetadataConflict k))
        end
    | None => (set_metadata m (hm_insert str_eqb k v (m_metadata m)), Ok None)
    end.

  (** [Model::remove_metadata], model/mod.rs:174-176. *)
  Definition remove_metadata (m : model) (k : str) : model :=
    set_metadata m (hm_remove str_eqb k (m_metadata m)).

  (** [Model::has_shapes], 186-188; [has_shape], 191-193 (inverted in the code); [shape], 196-198. *)
  Definition has_shapes (m : model) : bool := match m_shapes m with [] => false | _ => true end.
  Definition has_shape (m : model) (id : shape_id) : bool := negb (hm_contains sid_key_eqb id (m_shapes m)).
  Definition model_shape (m : model) (id : shape_id) : option shape := hm_get sid_key_eqb id (m_shapes m).

  (** [existing] updated through the reference obtained from [shape_mut], model/mod.rs:201-203. *)
  Definition update_shape (m : model) (id : shape_id) (s : shape) : model :=
    set_shapes m (hm_update sid_key_eqb id (fun _ => s) (m_shapes m)).

  (** [copy_traits(existing, &shape)?], model/mod.rs:305-310. *)
  Definition copy_traits (to from : shape) : shape * result unit :=
    let (ts, r) := append_traits (ts_traits to) (ts_traits from) in
    (Shape (ts_id to) ts (ts_body to), r).

  (** [TopLevelShape::set_body], shapes/mod.rs:444-446. *)
  Definition set_body (s : shape) (b : shape_kind) : shape := Shape (ts_id s) (ts_traits s) b.

  (** [Model::add_shape], model/mod.rs:217-253. *)
  Definition add_shape (m : model) (s : shape) : model * result unit :=
    if sid_is_member (ts_id s) && negb (is_unresolved (ts_body s))
    then (m, Err (EShapeIDExpected (ts_id s)))
    else match model_shape m (ts_id s) with
         | Some existing =>
             match is_unresolved (ts_body existing), is_unresolved (ts_body s) with
             | false, false =>
                 match equal_without_traits existing s with
                 | Ok true => let (e, r) := copy_traits existing s in (update_shape m (ts_id s) e, r)
                 | Ok false => (m, Err (EMergeShapeConflict (ts_id existing)))
                 | Err e => (m, Err e)
                 | Panic => (m, Panic)
                 end
             | true, false =>
                 let (e, r) := copy_traits (set_body existing (ts_body s)) s in (update_shape m (ts_id s) e, r)
             | _, _ =>
                 let (e, r) := copy_traits existing s in (update_shape m (ts_id s) e, r)
             end
         | None => (set_shapes m (hm_insert sid_key_eqb (ts_id s) s (m_shapes m)), Ok tt)
         end.

  (** [Model::remove_shape], model/mod.rs:256-258. *)
  Definition remove_shape (m : model) (id : shape_id) : model :=
    set_shapes m (hm_remove sid_key_eqb id (m_shapes m)).

  (** The two loops of [Model::merge], model/mod.rs:101-107; [other]'s maps are consumed in their
      iteration order and an error leaves what has been merged so far. *)
  Fixpoint merge_metadata (m : model) (l : list (str * value)) : model * result unit :=
    match l with
    | [] => (m, Ok tt)
    | (k, v) :: l' =>
        match add_metadata m k v with
        | (m', Ok _) => merge_metadata m' l'
        | (m', Err e) => (m', Err e)
        | (m', Panic) => (m', Panic)
        end
    end.
  Fixpoint merge_shapes (m : model) (l : list (shape_id * shape)) : model * result unit :=
    match l with
    | [] => (m, Ok tt)
    | (_, s) :: l' =>
        match add_shape m s with
        | (m', Ok _) => merge_shapes m' l'
        | (m', r) => (m', r)
        end
    end.
  (** [Model::merge], model/mod.rs:91-110. *)
  Definition merge (m other : model) : model * result unit :=
    if negb (version_eqb (m_version other) (m_version m)) then (m, Err EMergeVersionConflict)
    else match merge_metadata m (m_metadata other) with
         | (m', Ok _) => merge_shapes m' (m_shapes other)
         | (m', r) => (m', r)
         end.

  (** [Model::shapes], 261-263; [shape_names], 267-272; [unresolved_shape_names], 276-281;
      [is_complete], 295-297. *)
  Definition shapes (m : model) : list shape := hm_values (m_shapes m).
  Definition shape_names (m : model) : list shape_id :=
    map ts_id (filter (fun s => negb (is_unresolved (ts_body s))) (shapes m)).
  Definition unresolved_shape_names (m : model) : list shape_id :=
    map ts_id (filter (fun s => is_unresolved (ts_body s)) (shapes m)).
  Definition is_complete (m : model) : bool := negb (existsb (fun s => is_unresolved (ts_body s)) (shapes m)).

  (** [Model::namespaces], 284-286: the resolved shapes' namespaces collected into a [HashSet]. *)
  Definition namespaces (m : model) : list str :=
    hm_keys (hm_from_list ident_key_eqb (map (fun id => (sid_ns id, tt)) (shape_names m))).

  (** Derived [PartialEq for Model], model/mod.rs:26. *)
  Definition model_eqb (a b : model) : bool :=
    version_eqb (m_version a) (m_version b)
    && hm_eqb str_eqb value_eqb (m_metadata a) (m_metadata b)
    && hm_eqb sid_key_eqb shape_eqb (m_shapes a) (m_shapes b).
End WithHasher.
