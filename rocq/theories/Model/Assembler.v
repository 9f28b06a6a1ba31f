(** Model of atelier-assembler/src/lib.rs: the file type registry and the model assembler. *)
From Verif.Model Require Export SemModel.

(** ** File types *)

(** [FileType], lib.rs:83-88. A reader is a function from the text of a file ([FileReader], 76);
    a read failure of the operating system is part of the function's result. *)
Record file_type := FileType { ft_name : str; ft_mime : option str; ft_reader : str -> result model }.
(** [FileType::new], 143-149; [new_with_mime_type], 154-160. *)
Definition ft_new (n : str) (r : str -> result model) : file_type := FileType n None r.
Definition ft_new_with_mime_type (n : str) (r : str -> result model) (t : str) : file_type := FileType n (Some t) r.

(** [BTreeMap<String, _>]: entries in increasing order of their keys; [get], [insert], [remove]. *)
Fixpoint bt_get {V} (k : str) (m : list (str * V)) : option V :=
  match m with
  | [] => None
  | (k', v) :: m' => match str_cmp k k' with Eq => Some v | Lt => None | Gt => bt_get k m' end
  end.
Fixpoint bt_insert {V} (k : str) (v : V) (m : list (str * V)) : list (str * V) :=
  match m with
  | [] => [(k, v)]
  | (k', v') :: m' =>
      match str_cmp k k' with Eq => (k', v) :: m' | Lt => (k, v) :: m | Gt => (k', v') :: bt_insert k v m' end
  end.
Fixpoint bt_remove {V} (k : str) (m : list (str * V)) : list (str * V) :=
  match m with
  | [] => []
  | (k', v') :: m' => match str_cmp k k' with Eq => m' | Lt => m | Gt => (k', v') :: bt_remove k m' end
  end.

(** [FileTypeRegistry], lib.rs:95-99; [empty], 220-225. [str::to_lowercase] is ASCII lower-casing
    here, as in the rest of the model. *)
Record registry := Registry { by_extension : list (str * file_type); by_mime_type : list (str * file_type) }.
Definition reg_empty : registry := Registry [] [].
(** [register], 230-239. *)
Definition reg_register (r : registry) (ft : file_type) (ext : str) : registry :=
  Registry (bt_insert (lower ext) ft (by_extension r))
    (match ft_mime ft with Some t => bt_insert (lower t) ft (by_mime_type r) | None => by_mime_type r end).
(** [register_all], 244-250. *)
Definition reg_register_all (r : registry) (ft : file_type) (exts : list str) : registry :=
  Registry (fold_left (fun m ext => bt_insert (lower ext) ft m) exts (by_extension r)) (by_mime_type r).
(** [contains], 255-257; [get], 262-264; [get_by_mime_type], 269-271; [remove], 276-278;
    [extensions], 283-285. *)
Definition reg_get (r : registry) (ext : str) : option file_type := bt_get (lower ext) (by_extension r).
Definition reg_contains (r : registry) (ext : str) : bool :=
  match reg_get r ext with Some _ => true | None => false end.
Definition reg_get_by_mime_type (r : registry) (t : str) : option file_type := bt_get (lower t) (by_mime_type r).
Definition reg_remove (r : registry) (ext : str) : registry * option file_type :=
  (Registry (bt_remove (lower ext) (by_extension r)) (by_mime_type r), reg_get r ext).
Definition reg_extensions (r : registry) : list str := map fst (by_extension r).
(** [Default for FileTypeRegistry], 193-214, for given readers of the two representations. *)
Definition reg_default (json smithy : str -> result model) : registry :=
  reg_register (reg_register reg_empty (ft_new "JSON AST" json) "json") (ft_new "Smithy IDL" smithy) "smithy".

(** ** Files *)

(** What a path leads to. Not modelled: symbolic links, files and directories that cannot be opened
    (where [read_dir(..).unwrap()] and [File::open(..).unwrap()] panic), and changes of the file
    system during the run. *)
Inductive node :=
| NFile (content : str)
| NDir (entries : list (str * node))
| NOther.
(** A path is its list of components; "." and ".." are not modelled. *)
Notation path := (list str).
Fixpoint node_at (n : node) (p : path) : option node :=
  match p with
  | [] => Some n
  | c :: p' =>
      match n with
      | NDir es => match hm_get str_eqb c es with Some n' => node_at n' p' | None => None end
      | _ => None
      end
  end.
(** [Path::extension]: the part of the file name after its last dot, unless the only dot is in front. *)
Fixpoint after_last_dot (s : str) : option str :=
  match s with
  | [] => None
  | c :: s' =>
      match after_last_dot s' with
      | Some e => Some e
      | None => if Ascii.eqb c dot then Some s' else None
      end
  end.
Definition name_extension (s : str) : option str := match s with [] => None | _ :: s' => after_last_dot s' end.
Definition path_extension (p : path) : option str :=
  match rev p with [] => None | f :: _ => name_extension f end.

(** [expand_path], lib.rs:424-442; directories are listed in an arbitrary order, that of [entries]. *)
Fixpoint expand_node (r : registry) (p : path) (n : node) : list path :=
  match n with
  | NFile _ =>
      match path_extension p with
      | Some e => if reg_contains r e then [p] else []
      | None => []
      end
  | NDir es => (fix go (es : list (str * node)) : list path :=
                  match es with
                  | [] => []
                  | (c, n') :: es' => expand_node r (p ++ [c]) n' ++ go es'
                  end) es
  | NOther => []
  end.
Definition expand_path (r : registry) (root : node) (p : path) : list path :=
  match node_at root p with Some n => expand_node r p n | None => [] end.
(** [expand_file_paths], 405-412; [paths] is a [HashSet]: a list without duplicates, in any order. *)
Definition expand_file_paths (r : registry) (root : node) (paths : list path) : list path :=
  flat_map (expand_path r root) paths.
(** [read_model], 444-458. *)
Definition read_model (r : registry) (root : node) (p : path) : result model :=
  match path_extension p with
  | Some e =>
      match reg_get r (lower e) with
      | Some ft => match node_at root p with Some (NFile c) => ft_reader ft c | _ => Panic end
      | None => Err (EInvalidRepresentation (lit "unknown"))
      end
  | None => Err (EInvalidRepresentation (lit "none"))
  end.
(** [push], 370-374, and [push_str], 380-384: [HashSet::insert]. *)
Definition path_eqb (a b : path) : bool := list_eqb str_eqb a b.
Definition push (paths : list path) (p : path) : list path :=
  if existsb (path_eqb p) paths then paths else paths ++ [p].

(** [collect] into a [Result]: reads until the first failure. *)
Fixpoint collect {A B} (f : A -> result B) (l : list A) : result (list B) :=
  match l with
  | [] => Ok []
  | x :: l' => y <- f x ;; ys <- collect f l' ;; Ok (y :: ys)
  end.

Section WithHasher.
  Context `{Hasher}.
  (** The loop of [try_from], 331-335. *)
  Fixpoint merge_all (m : model) (others : list model) : result model :=
    match others with
    | [] => Ok m
    | o :: others' =>
        match merge m o with
        | (m', Ok _) => merge_all m' others'
        | (_, Err e) => Err e
        | (_, Panic) => Panic
        end
    end.
  (** [Model::default], model/mod.rs:34-38. *)
  Definition model_default : model := model_new V10.
  (** [TryFrom<&mut ModelAssembler> for Model], 308-341. *)
  Definition assemble (r : registry) (root : node) (paths : list path) : result model :=
    match paths with
    | [] => Ok model_default
    | _ =>
        models <- collect (read_model r root) (expand_file_paths r root paths) ;;
        match models with
        | [] => Ok model_default
        | m :: others => merge_all m others
        end
    end.
End WithHasher.
