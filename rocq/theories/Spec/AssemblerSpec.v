(** Specification vocabulary for the registry and the assembler. *)
From Verif.Model Require Import Assembler.
From Verif.Spec Require Export ModelSpec.

(** ** Histories of a registry *)
Inductive reg_op :=
| RgRegister (ft : file_type) (ext : str)
| RgRegisterAll (ft : file_type) (exts : list str)
| RgRemove (ext : str).
Definition reg_run (ops : list reg_op) (r : registry) : registry :=
  fold_left (fun r o => match o with
                        | RgRegister ft e => reg_register r ft e
                        | RgRegisterAll ft es => reg_register_all r ft es
                        | RgRemove e => fst (reg_remove r e)
                        end) ops r.
(** The operation registers [ft] for extension [e]; it changes what is known of [e]; the same for MIME
    types. Extensions and MIME types are compared without regard to case. *)
Definition op_registers (o : reg_op) (ft : file_type) (e : str) : Prop :=
  match o with
  | RgRegister ft' e' => ft' = ft /\ same_name e' e
  | RgRegisterAll ft' es => ft' = ft /\ exists e', In e' es /\ same_name e' e
  | RgRemove _ => False
  end.
Definition op_touches (o : reg_op) (e : str) : Prop :=
  match o with
  | RgRegister _ e' | RgRemove e' => same_name e' e
  | RgRegisterAll _ es => exists e', In e' es /\ same_name e' e
  end.
Definition op_mime (o : reg_op) (ft : file_type) (t : str) : Prop :=
  match o with
  | RgRegister ft' _ => ft' = ft /\ exists t', ft_mime ft' = Some t' /\ same_name t' t
  | _ => False
  end.
(** The last operation of the history that touches [e] registered [ft] for it. *)
Definition registered_last (ops : list reg_op) (ft : file_type) (e : str) : Prop :=
  exists before o after, ops = before ++ o :: after /\ op_registers o ft e
    /\ forall o', In o' after -> ~ op_touches o' e.
Definition mime_last (ops : list reg_op) (ft : file_type) (t : str) : Prop :=
  exists before o after, ops = before ++ o :: after /\ op_mime o ft t
    /\ forall o' ft', In o' after -> ~ op_mime o' ft' t.
Fixpoint increasing (l : list str) : Prop :=
  match l with
  | a :: l' => match l' with b :: _ => str_cmp a b = Lt | [] => True end /\ increasing l'
  | [] => True
  end.

(** ** Files *)
(** Entries of a directory have different names. *)
Inductive node_ok : node -> Prop :=
| no_file c : node_ok (NFile c)
| no_other : node_ok NOther
| no_dir es : distinct str_eqb es -> Forall (fun e => node_ok (snd e)) es -> node_ok (NDir es).
(** The extension of a file name is what follows its last dot; that dot is not the first character. *)
Definition has_extension (p : path) (e : str) : Prop :=
  exists dir stem, p = dir ++ [stem ++ dot :: e] /\ stem <> [] /\ ~ In dot e.
(** [p] is a file with an extension for which there is a reader. *)
Definition model_file (r : registry) (root : node) (p : path) : Prop :=
  (exists c, node_at root p = Some (NFile c))
  /\ exists e ft, has_extension p e /\ reg_get r e = Some ft.
(** The reader for its extension turns the contents of the file into [m]. *)
Definition reads (r : registry) (root : node) (p : path) (m : model) : Prop :=
  exists c e ft, node_at root p = Some (NFile c) /\ has_extension p e /\ reg_get r e = Some ft /\ ft_reader ft c = Ok m.
Definition below (p q : path) : Prop := exists d, q = p ++ d.

(** ** Merging many models *)
Section WithHasher.
  Context `{Hasher}.
  (** All values of a list, if they are arrays. *)
  Fixpoint all_arrays (vs : list value) : option (list value) :=
    match vs with
    | [] => Some []
    | VArray l :: vs' => match all_arrays vs' with Some l' => Some (l ++ l') | None => None end
    | _ => None
    end.
  (** Arrays are concatenated in order; otherwise the first value is kept. *)
  Definition combined (vs : list value) : option value :=
    match vs with
    | [] => None
    | v :: _ => match all_arrays vs with Some l => Some (VArray l) | None => Some v end
    end.
  Fixpoint somes {A} (l : list (option A)) : list A :=
    match l with [] => [] | Some a :: l' => a :: somes l' | None :: l' => somes l' end.
  Definition combined_trait (vs : list (option value)) : option (option value) :=
    match vs with [] => None | None :: _ => Some None | Some _ :: _ => Some (combined (somes vs)) end.
  Fixpoint first_resolved (l : list shape) : shape_kind :=
    match l with
    | [] => KUnresolved
    | s :: l' => match ts_body s with KUnresolved => first_resolved l' | b => b end
    end.
  (** The model made from [ms]: metadata combined key by key, shapes combined id by id. *)
  Definition combined_model (ms : list model) (r : model) : Prop :=
    (forall k, metadata_value r k = combined (somes (map (fun m => metadata_value m k) ms)))
    /\ (forall id, let ss := somes (map (fun m => model_shape m id) ms) in
          match model_shape r id, ss with
          | None, [] => True
          | Some s, s0 :: _ =>
              ts_id s = ts_id s0 /\ ts_body s = first_resolved ss
              /\ forall t, trait_named t (ts_traits s)
                           = combined_trait (somes (map (fun x => trait_named t (ts_traits x)) ss))
          | _, _ => False
          end).
End WithHasher.

(** The readers return well-formed models (as every history of operations on a model does). *)
Definition readers_ok `{Hasher} (r : registry) : Prop :=
  forall e ft c m, reg_get r e = Some ft -> ft_reader ft c = Ok m -> model_ok m.
(** No pushed path is, or is inside, another one. *)
Definition separate (paths : list path) : Prop :=
  NoDup paths /\ forall p q, In p paths -> In q paths -> below p q -> p = q.
(** The same files at the same places: directories may be listed in any order. *)
Definition same_files (a b : node) : Prop :=
  forall p c, node_at a p = Some (NFile c) <-> node_at b p = Some (NFile c).
