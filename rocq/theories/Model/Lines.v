(** Model of atelier-core/src/io/lines.rs: the line-oriented form. *)
From Verif.Model Require Export SemModel.

(** Rust [Vec<String>::sort]; the order on strings is total and antisymmetric, so any sort gives
    the same result. *)
Fixpoint insert_sorted (x : str) (l : list str) : list str :=
  match l with
  | [] => [x]
  | y :: l' => if str_leb x y then x :: y :: l' else y :: insert_sorted x l'
  end.
Definition sort_strings (l : list str) : list str := fold_right insert_sorted [] l.

(** lines.rs:215-219. *)
Definition sep : str := lit "::".          (* SEGMENT_SEP *)
Definition tgt : str := lit "=>".          (* TARGET_SEP *)
Definition val : str := lit "<=".          (* VALUE_SEP *)

Section Lines.
  (** [Display for f64] and [Debug for str] (the quoted form with escapes) of the standard library. *)
  Variables (f64_str : Z -> str) (debug_str : str -> str).

  (** [{}] of a [usize]. *)
  Definition index_str (i : nat) : str := int_to_str (Z.of_nat i).

  (** [value_into_strings], lines.rs:363-390. *)
  Fixpoint value_lines (prefix : str) (v : value) : list str :=
    match v with
    | VArray [] => [prefix ++ lit "[]"]
    | VArray vs =>
        (fix go (i : nat) (l : list value) : list str :=
           match l with
           | [] => []
           | x :: l' => value_lines (prefix ++ lit "[" ++ index_str i ++ lit "]=") x ++ go (S i) l'
           end) 0 vs
    | VObject [] => [prefix ++ lit "{}"]
    | VObject vs => flat_map (fun kv => value_lines (prefix ++ lit "{" ++ fst kv ++ lit "}=") (snd kv)) vs
    | VNumber n => [prefix ++ number_display f64_str n]
    | VBoolean b => [prefix ++ bool_str b]
    | VString s => [prefix ++ [dquote] ++ s ++ [dquote]]
    | VNone => [prefix ++ lit "()"]
    end.

  (** [traits_into_strings], lines.rs:399-418. *)
  Definition trait_lines (prefix : str) (t : shape_id * option value) : list str :=
    match snd t with
    | None => [prefix ++ sid_display (fst t)]
    | Some v => value_lines (prefix ++ sid_display (fst t) ++ val) v
    end.
  Definition traits_lines (prefix : str) (ts : traits) : list str := flat_map (trait_lines prefix) ts.

  (** [member_target], lines.rs:359-361. *)
  Definition member_target (n : str) (id : shape_id) : str := sep ++ n ++ tgt ++ sid_display id.

  (** The prefix of trait lines, lines.rs:355, 395. *)
  Definition trait_prefix (prefix : str) : str := prefix ++ sep ++ lit "trait" ++ sep.

  (** [member_into_strings], lines.rs:392-397. *)
  Definition member_lines (prefix : str) (m : member_shape) : list str :=
    let prefix := prefix ++ sep ++ ms_id m in
    (prefix ++ tgt ++ sid_display (ms_target m)) :: traits_lines (trait_prefix prefix) (ms_traits m).

  (** [line_prefix], lines.rs:221-223, with the names given in the arms of lines.rs:225-353. *)
  Definition kind_name (b : shape_kind) : str :=
    match b with
    | KSimple s => simple_display s
    | KList _ => lit "list" | KSet _ => lit "set" | KMap _ _ => lit "map"
    | KStructure _ => lit "structure" | KUnion _ => lit "union"
    | KService _ => lit "service" | KOperation _ => lit "operation" | KResource _ => lit "resource"
    | KUnresolved => lit "unresolved"
    end.
  Definition line_prefix (s : shape) : str := kind_name (ts_body s) ++ sep ++ sid_display (ts_id s).

  Definition opt_line (prefix n : str) (o : option shape_id) : list str :=
    match o with Some id => [prefix ++ member_target n id] | None => [] end.
  Definition id_lines (prefix n : str) (l : list shape_id) : list str :=
    map (fun id => prefix ++ member_target n id) l.

  (** The arms of [shape_into_strings] after the first line, lines.rs:225-353. *)
  Definition body_lines (prefix : str) (b : shape_kind) : list str :=
    match b with
    | KSimple _ | KUnresolved => []
    | KList m | KSet m => member_lines prefix m
    | KMap k v => member_lines prefix k ++ member_lines prefix v
    | KStructure ms | KUnion ms => flat_map (fun e => member_lines prefix (snd e)) ms
    | KService v =>
        [prefix ++ sep ++ lit "version" ++ val ++ debug_str (sv_version v)]
        ++ id_lines prefix (lit "operation") (sv_operations v)
        ++ id_lines prefix (lit "resource") (sv_resources v)
        ++ map (fun e => prefix ++ sep ++ lit "rename" ++ sep ++ sid_display (fst e) ++ val ++ snd e) (sv_renames v)
    | KOperation o =>
        opt_line prefix (lit "input") (op_input o) ++ opt_line prefix (lit "output") (op_output o)
        ++ id_lines prefix (lit "error") (op_errors o)
    | KResource r =>
        map (fun e => prefix ++ (sep ++ lit "identifier") ++ member_target (fst e) (snd e)) (rs_identifiers r)
        ++ opt_line prefix (lit "create") (rs_create r) ++ opt_line prefix (lit "put") (rs_put r)
        ++ opt_line prefix (lit "read") (rs_read r) ++ opt_line prefix (lit "update") (rs_update r)
        ++ opt_line prefix (lit "delete") (rs_delete r) ++ opt_line prefix (lit "list") (rs_list r)
        ++ id_lines prefix (lit "operation") (rs_operations r)
        ++ id_lines prefix (lit "collection_operation") (rs_collection_operations r)
        ++ id_lines prefix (lit "resource") (rs_resources r)
    end.

  (** [shape_into_strings], lines.rs:224-357. *)
  Definition shape_lines (s : shape) : list str :=
    let prefix := line_prefix s in
    prefix :: body_lines prefix (ts_body s) ++ traits_lines (trait_prefix prefix) (ts_traits s).

  (** lines.rs:178-184. *)
  Definition metadata_lines (e : str * value) : list str :=
    value_lines (lit "meta" ++ sep ++ fst e ++ val) (snd e).

  (** [make_line_oriented_form], lines.rs:176-190. *)
  Definition make_line_oriented_form (m : model) : list str :=
    sort_strings (flat_map metadata_lines (m_metadata m) ++ flat_map shape_lines (shapes m)).

  (** [LineOrientedWriter::write], lines.rs:202-209: the lines, each ended by a newline. *)
  Definition line_writer (m : model) : str :=
    flat_map (fun l => l ++ [ascii_of_N 10]) (make_line_oriented_form m).
End Lines.
