(** Model of atelier-core/src/error.rs in full: every [ErrorKind] with its contents and its text. (The other models
    use the type [error] of Base.v, which keeps less of the contents.) *)
From Verif.Model Require Export Queries.

(** [ErrorKind], error.rs:16-150. *)
Inductive error_kind :=
| InvalidShapeID (id : str)
| AbsoluteShapeIDExpected (id : shape_id)
| ShapeIDExpected (id : shape_id)
| MemberIDExpected (id : shape_id)
| UnknownShape (s : str)
| UnknownMember (s : str)
| AmbiguousShape (s : str)
| MergeVersionConflict (v1 v2 : str)
| MergeShapeConflict (id : shape_id)
| MergeTraitConflict (id : shape_id)
| MergeMetadataConflict (key : str)
| InvalidVersionNumber (v : option str)
| InvalidTraitValue (name : str)
| InvalidSimpleShape (s : str)
| InvalidSelectorExpression (expr : str)
| InvalidRepresentation (repr : str)
| Serialization (repr : str)
| Deserialization (representation location : str) (context : option str)
| ActionIssues (reasons : list issue).

Section Text.
  (** [Debug for str] of the standard library. *)
  Variable debug_str : str -> str.

  (** Derived [Debug]: [Option], [Identifier] and [NamespaceID] (identity.rs:22, 35), [ShapeID] (61), [IssueLevel]
      and [ActionIssue] (action/mod.rs:102, 119), [Vec]. *)
  Definition debug_option {A} (d : A -> str) (o : option A) : str :=
    match o with None => lit "None" | Some x => lit "Some(" ++ d x ++ lit ")" end.
  Definition debug_identifier (i : str) : str := lit "Identifier(" ++ debug_str i ++ lit ")".
  Definition debug_namespace (n : str) : str := lit "NamespaceID(" ++ debug_str n ++ lit ")".
  Definition debug_id (i : shape_id) : str :=
    lit "ShapeID { namespace: " ++ debug_namespace (sid_ns i) ++ lit ", shape_name: " ++ debug_identifier (sid_name i)
    ++ lit ", member_name: " ++ debug_option debug_identifier (sid_member i) ++ lit " }".
  Definition debug_level (l : level) : str :=
    match l with Info => lit "Info" | Warning => lit "Warning" | Error => lit "Error" end.
  Definition debug_issue (i : issue) : str :=
    lit "ActionIssue { reporter: " ++ debug_str (i_reporter i) ++ lit ", level: " ++ debug_level (i_level i)
    ++ lit ", message: " ++ debug_str (i_message i) ++ lit ", locus: " ++ debug_option debug_id (i_locus i) ++ lit " }".
  Definition debug_list {A} (d : A -> str) (l : list A) : str := lit "[" ++ join (lit ", ") (map d l) ++ lit "]".

  (** [Display for ErrorKind], the [display(...)] clauses of error.rs:22-149; [Display for Error] of error_chain is that
      of its kind. *)
  Definition error_display (e : error_kind) : str :=
    match e with
    | InvalidShapeID id => lit "Invalid shape ID: '" ++ id ++ lit "'."
    | AbsoluteShapeIDExpected id => lit "Expected an absolute shape ID: '" ++ sid_display id ++ lit "'."
    | ShapeIDExpected id => lit "Expected a shape, not member, ID: '" ++ sid_display id ++ lit "'."
    | MemberIDExpected id => lit "Expected a member, not shape, ID: '" ++ sid_display id ++ lit "'."
    | UnknownShape s => lit "A reference to an unknown shape ID was encountered: '" ++ s ++ lit "'."
    | UnknownMember s => lit "An unknown member ID was encountered: '" ++ s ++ lit "'."
    | AmbiguousShape s => lit "A shape name resolved to multiple shape IDs: '" ++ s ++ lit "'."
    | MergeVersionConflict v1 v2 =>
        lit "Merge cannot take place between models with different versions ('" ++ v1 ++ lit "' != '" ++ v2 ++ lit "')."
    | MergeShapeConflict id => lit "A merge conflict occurred between two shapes named '" ++ sid_display id ++ lit "'."
    | MergeTraitConflict id =>
        lit "A merge conflict occurred between two applied traits named '" ++ sid_display id ++ lit "'."
    | MergeMetadataConflict key =>
        lit "A merge conflict occurred between two metadata values keyed '" ++ key ++ lit "'."
    | InvalidVersionNumber v => lit "Invalid version number: '" ++ debug_option debug_str v ++ lit "'."
    | InvalidTraitValue name =>
        lit "Invalid, or missing, value specified for trait named '" ++ name ++ lit "'."
    | InvalidSimpleShape s => lit "Invalid simple shape name: '" ++ s ++ lit "'."
    | InvalidSelectorExpression expr =>
        lit "The selector expression(s) failed to parse: '" ++ expr ++ lit "'."
    | InvalidRepresentation repr =>
        lit "Requested action is not supported by the selected representation '" ++ repr ++ lit "'."
    | Serialization repr => lit "An error occurred serializing a model into representation '" ++ repr ++ lit "'."
    | Deserialization r l c =>
        lit "An error occurred de-serializing a model from representation '" ++ r ++ lit "' at location '" ++ l
        ++ lit "' (context '" ++ debug_option debug_str c ++ lit "')."
    | ActionIssues l => lit "Reporting issues found by an Action: " ++ debug_list debug_issue l
    end.
End Text.
