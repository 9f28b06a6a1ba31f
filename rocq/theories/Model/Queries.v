(** The queries and small conversions of atelier-core that the rest of the model does not need: the trait
    predicates of [HasTraits], the predicates and accessors of [ShapeKind], [TopLevelShape], [Value] and
    [ShapeName], the order of [Number] and [IssueLevel], the [From] conversions of values. *)
From Verif.Model Require Export Shapes Prelude Builder Actions.

Section Traits.
  Context `{Hasher}.

  (** [prelude_name], shapes/mod.rs:528-531. [new_unchecked] (identity.rs:285-295) keeps the texts. *)
  Definition prelude_name (n : string) : shape_id := SID prelude_ns (lit n) None.

  (** [HasTraits], shapes/mod.rs:112-226, in source order; the names are the [TRAIT_...] constants of
      prelude.rs:298-737. *)
  Definition has_documentation (ts : traits) : bool := has_trait (prelude_name "documentation") ts.
  Definition has_external_documentation (ts : traits) : bool := has_trait (prelude_name "externalDocumentation") ts.
  Definition has_length (ts : traits) : bool := has_trait (prelude_name "length") ts.
  Definition has_pattern (ts : traits) : bool := has_trait (prelude_name "pattern") ts.
  Definition has_required_length (ts : traits) : bool := has_trait (prelude_name "requiresLength") ts.
  Definition is_boxed (ts : traits) : bool := has_trait (prelude_name "box") ts.
  Definition is_deprecated (ts : traits) : bool := has_trait (prelude_name "deprecated") ts.
  Definition is_error (ts : traits) : bool := has_trait (prelude_name "error") ts.
  Definition is_idempotent (ts : traits) : bool := has_trait (prelude_name "idempotent") ts.
  Definition is_no_replace (ts : traits) : bool := has_trait (prelude_name "noReplace") ts.
  Definition is_paginated (ts : traits) : bool := has_trait (prelude_name "paginated") ts.
  Definition is_private (ts : traits) : bool := has_trait (prelude_name "private") ts.
  Definition is_readonly (ts : traits) : bool := has_trait (prelude_name "readonly") ts.
  Definition is_references (ts : traits) : bool := has_trait (prelude_name "references") ts.
  Definition is_required (ts : traits) : bool := has_trait (prelude_name "required") ts.
  Definition is_sensitive (ts : traits) : bool := has_trait (prelude_name "sensitive") ts.
  Definition is_streaming (ts : traits) : bool := has_trait (prelude_name "streaming") ts.
  Definition is_since (ts : traits) : bool := has_trait (prelude_name "since") ts.
  Definition is_tagged (ts : traits) : bool := has_trait (prelude_name "tags") ts.
  Definition is_titled (ts : traits) : bool := has_trait (prelude_name "title") ts.
  Definition is_trait (ts : traits) : bool := has_trait (prelude_name "trait") ts.
  Definition has_unique_items (ts : traits) : bool := has_trait (prelude_name "uniqueItems") ts.
  Definition is_unstable (ts : traits) : bool := has_trait (prelude_name "unstable") ts.

  (** [HasTraits::apply], shapes/mod.rs:76-78. *)
  Definition apply (ts : traits) (id : shape_id) : traits * result unit := apply_with_value ts id None.
End Traits.

(** ** Shapes *)

(** [is_as!]/[is_only!] of [ShapeKind], shapes/mod.rs:334-345, macros.rs:30-60, delegated by [TopLevelShape] at
    450-459; the remaining ones are in Shapes.v. *)
Definition kind_is_simple (k : shape_kind) : bool := match k with KSimple _ => true | _ => false end.
Definition kind_is_list (k : shape_kind) : bool := match k with KList _ => true | _ => false end.
Definition kind_is_set (k : shape_kind) : bool := match k with KSet _ => true | _ => false end.
Definition kind_is_map (k : shape_kind) : bool := match k with KMap _ _ => true | _ => false end.
Definition kind_is_structure (k : shape_kind) : bool := match k with KStructure _ => true | _ => false end.
Definition kind_is_union (k : shape_kind) : bool := match k with KUnion _ => true | _ => false end.
Definition kind_as_simple (k : shape_kind) : option simple := match k with KSimple v => Some v | _ => None end.
Definition kind_as_list (k : shape_kind) : option member_shape := match k with KList v => Some v | _ => None end.
Definition kind_as_set (k : shape_kind) : option member_shape := match k with KSet v => Some v | _ => None end.
Definition kind_as_map (k : shape_kind) : option (member_shape * member_shape) :=
  match k with KMap a b => Some (a, b) | _ => None end.
Definition kind_as_structure (k : shape_kind) : option members := match k with KStructure v => Some v | _ => None end.
Definition kind_as_union (k : shape_kind) : option members := match k with KUnion v => Some v | _ => None end.
Definition kind_as_service (k : shape_kind) : option service := match k with KService v => Some v | _ => None end.
Definition kind_as_operation (k : shape_kind) : option operation := match k with KOperation v => Some v | _ => None end.
Definition kind_as_resource (k : shape_kind) : option resource := match k with KResource v => Some v | _ => None end.
(** [From<Simple>], [From<Service>], [From<Operation>], [From<Resource>] for [ShapeKind], shapes/mod.rs:310-332. *)
Definition kind_from_simple (b : simple) : shape_kind := KSimple b.
Definition kind_from_service (b : service) : shape_kind := KService b.
Definition kind_from_operation (b : operation) : shape_kind := KOperation b.
Definition kind_from_resource (b : resource) : shape_kind := KResource b.

(** [TopLevelShape::new], [with_traits], [set_body], [set_id], [body()], shapes/mod.rs:386-444. *)
Definition shape_new (id : shape_id) (b : shape_kind) : shape := Shape id [] b.
Definition shape_with_traits (id : shape_id) (b : shape_kind) (ts : traits) : shape := Shape id ts b.
Definition shape_set_body (s : shape) (b : shape_kind) : shape := Shape (ts_id s) (ts_traits s) b.
Definition shape_set_id (s : shape) (id : shape_id) : shape := Shape id (ts_traits s) (ts_body s).
(** [TopLevelShape::is_prelude_shape], shapes/mod.rs:467-469: texts are compared. *)
Definition is_prelude_shape (s : shape) : bool := str_eqb (sid_ns (ts_id s)) prelude_ns.
(** [TopLevelShape::has_members], shapes/mod.rs:474-476. *)
Definition shape_has_members (s : shape) : bool :=
  match ts_body s with KSimple _ | KUnresolved => false | _ => true end.

(** ** Values *)

(** [is_as!]/[is_only!] of [Value], values.rs:227-239; [is_array] is in Values.v. *)
Definition value_is_object (v : value) : bool := match v with VObject _ => true | _ => false end.
Definition value_is_number (v : value) : bool := match v with VNumber _ => true | _ => false end.
Definition value_is_boolean (v : value) : bool := match v with VBoolean _ => true | _ => false end.
Definition value_is_string (v : value) : bool := match v with VString _ => true | _ => false end.
Definition value_is_none (v : value) : bool := match v with VNone => true | _ => false end.
Definition value_as_array (v : value) : option (list value) := match v with VArray x => Some x | _ => None end.
Definition value_as_object (v : value) : option (list (str * value)) := match v with VObject x => Some x | _ => None end.
Definition value_as_number (v : value) : option number := match v with VNumber x => Some x | _ => None end.
Definition value_as_boolean (v : value) : option bool := match v with VBoolean x => Some x | _ => None end.
Definition value_as_string (v : value) : option str := match v with VString x => Some x | _ => None end.

(** The [From] conversions, values.rs:63-97 and 110-198. An [i8], [i16], [i32] or [i64] is its value; an [f64] its
    bits; [From<f32>] (widening) is left out. *)
Definition number_from_int (n : Z) : number := NInteger n.
Definition number_from_f64 (b : Z) : number := NFloat b.
Definition value_from_number (n : number) : value := VNumber n.
Definition value_from_int (n : Z) : value := VNumber (number_from_int n).
Definition value_from_f64 (b : Z) : value := VNumber (number_from_f64 b).
Definition value_from_bool (b : bool) : value := VBoolean b.
Definition value_from_string (s : str) : value := VString s.
Definition value_from_id (i : shape_id) : value := VString (sid_display i).
Definition value_from_vec (l : list value) : value := VArray l.
Definition value_from_map (l : list (str * value)) : value := VObject l.

(** [f64::partial_cmp]: IEEE 754 compares sign and magnitude, nothing with a NaN, and the zeros as equal. *)
Definition f64_signed (b : Z) : Z :=
  let mag := Z.land b 0x7FFFFFFFFFFFFFFF in if Z.testbit b 63 then Z.opp mag else mag.
Definition f64_partial_cmp (a b : Z) : option comparison :=
  if f64_is_nan a || f64_is_nan b then None else Some (Z.compare (f64_signed a) (f64_signed b)).
(** Derived [PartialOrd for Number], values.rs:23: variants by position, then the contents. *)
Definition number_partial_cmp (a b : number) : option comparison :=
  match a, b with
  | NInteger x, NInteger y => Some (Z.compare x y)
  | NInteger _, NFloat _ => Some Lt
  | NFloat _, NInteger _ => Some Gt
  | NFloat x, NFloat y => f64_partial_cmp x y
  end.

(** ** [ShapeName], builder/id.rs; [FromStr] and [shape_name()] are in Builder.v *)

(** [Display for ShapeName], id.rs:38-48. *)
Definition shape_name_display (n : shape_name) : str := match n with Qualified i => sid_display i | Local i => i end.
(** [From<ShapeID>], [From<Identifier>], id.rs:50-60. *)
Definition shape_name_from_id (i : shape_id) : shape_name := Qualified i.
Definition shape_name_from_identifier (i : str) : shape_name := Local i.
(** [is_as!], id.rs:77, 86. *)
Definition is_qualified (n : shape_name) : bool := match n with Qualified _ => true | _ => false end.
Definition is_local (n : shape_name) : bool := match n with Local _ => true | _ => false end.
Definition as_qualified (n : shape_name) : option shape_id := match n with Qualified i => Some i | _ => None end.
Definition as_local (n : shape_name) : option str := match n with Local i => Some i | _ => None end.
(** [eq_qualified], id.rs:79-84, [eq_local], 88-93. *)
Definition eq_qualified (n : shape_name) (i : shape_id) : bool := match n with Qualified j => sid_eqb j i | _ => false end.
Definition eq_local (n : shape_name) (i : str) : bool := match n with Local j => ident_eqb j i | _ => false end.
(** [namespace()], id.rs:95-100, [member_name()], 109-114. *)
Definition name_namespace (n : shape_name) : option str := match n with Qualified i => Some (sid_ns i) | _ => None end.
Definition name_member (n : shape_name) : option str := match n with Qualified i => sid_member i | _ => None end.
(** Derived [PartialEq for ShapeName], id.rs:19. *)
Definition shape_name_eqb (a b : shape_name) : bool :=
  match a, b with
  | Qualified x, Qualified y => sid_eqb x y
  | Local x, Local y => ident_eqb x y
  | _, _ => false
  end.

(** ** Issues, action/mod.rs *)

(** Derived [PartialOrd for IssueLevel], action/mod.rs:102. *)
Definition level_partial_cmp (a b : level) : option comparison := Some (Nat.compare (level_rank a) (level_rank b)).
(** [Display for IssueLevel], action/mod.rs:189-201. *)
Definition level_display (l : level) : str :=
  match l with Info => lit "info" | Warning => lit "warning" | Error => lit "error" end.
(** [ActionIssue::new], [new_at], action/mod.rs:226-246: the message is asserted not to be empty. *)
Definition issue_new (l : level) (rep msg : str) : result issue :=
  match msg with [] => Panic | _ => Ok (Issue rep l msg None) end.
Definition issue_new_at (l : level) (rep msg : str) (at_ : shape_id) : result issue :=
  match msg with [] => Panic | _ => Ok (Issue rep l msg (Some at_)) end.
(** [info], [info_at], [warning], [warning_at], [error], [error_at], action/mod.rs:249-279. *)
Definition issue_info (rep msg : str) : result issue := issue_new Info rep msg.
Definition issue_info_at (rep msg : str) (at_ : shape_id) : result issue := issue_new_at Info rep msg at_.
Definition issue_warning (rep msg : str) : result issue := issue_new Warning rep msg.
Definition issue_warning_at (rep msg : str) (at_ : shape_id) : result issue := issue_new_at Warning rep msg at_.
Definition issue_error (rep msg : str) : result issue := issue_new Error rep msg.
Definition issue_error_at (rep msg : str) (at_ : shape_id) : result issue := issue_new_at Error rep msg at_.
(** [Display for ActionIssue], action/mod.rs:206-220. *)
Definition issue_display (i : issue) : str :=
  i_reporter i ++ lit " " ++ level_display (i_level i)
  ++ match i_locus i with Some id => lit " " ++ sid_display id | None => [] end
  ++ lit ": " ++ i_message i.
