(** Model of atelier-core/src/builder/selector.rs, and of the constructors it uses in
    atelier-core/src/model/selector/mod.rs. A [SelectorBuilder], selector.rs:49-51, is its list of
    expressions; an [AttributeBuilder], 57-59, its [AttributeSelector]. *)
From Verif.Model Require Export Selector.
From Verif.Model Require Import ShapeApi.

(** The methods [any_shape], ..., [member], selector.rs:124-376, each of which also exists as
    [add_...]. *)
Inductive shape_method :=
| Named_any_shape
| Named_any_number
| Named_any_simple_type
| Named_any_collection
| Named_blob
| Named_boolean
| Named_document
| Named_string
| Named_integer
| Named_byte
| Named_short
| Named_long
| Named_float
| Named_double
| Named_big_decimal
| Named_big_integer
| Named_timestamp
| Named_list
| Named_set
| Named_map
| Named_structure
| Named_union
| Named_service
| Named_operation
| Named_resource
| Named_member.
(** The [ShapeType] each starts with, 124-376 (every other method). *)
Definition start_type (m : shape_method) : shape_type :=
  match m with
  | Named_any_shape => TyAny
  | Named_any_number => TyNumber
  | Named_any_simple_type => TySimpleType
  | Named_any_collection => TyCollection
  | Named_blob => TyBlob
  | Named_boolean => TyBoolean
  | Named_document => TyDocument
  | Named_string => TyString
  | Named_integer => TyInteger
  | Named_byte => TyByte
  | Named_short => TyShort
  | Named_long => TyLong
  | Named_float => TyFloat
  | Named_double => TyDouble
  | Named_big_decimal => TyBigDecimal
  | Named_big_integer => TyBigInteger
  | Named_timestamp => TyTimestamp
  | Named_list => TyList
  | Named_set => TySet
  | Named_map => TyMap
  | Named_structure => TyStructure
  | Named_union => TyUnion
  | Named_service => TyService
  | Named_operation => TyOperation
  | Named_resource => TyResource
  | Named_member => TyMember
  end.
(** The [ShapeType] each [add_...] adds, 129-381. *)
Definition add_type (m : shape_method) : shape_type :=
  match m with
  | Named_any_shape => TyAny
  | Named_any_number => TyNumber
  | Named_any_simple_type => TySimpleType
  | Named_any_collection => TyCollection
  | Named_blob => TyBlob
  | Named_boolean => TyBoolean
  | Named_document => TyDocument
  | Named_string => TyString
  | Named_integer => TyInteger
  | Named_byte => TyByte
  | Named_short => TyShort
  | Named_long => TyLong
  | Named_float => TyFloat
  | Named_double => TyDouble
  | Named_big_decimal => TyBigDecimal
  | Named_big_integer => TyBigInteger
  | Named_timestamp => TyTimestamp
  | Named_list => TyList
  | Named_set => TySet
  | Named_map => TyMap
  | Named_structure => TyStructure
  | Named_union => TyUnion
  | Named_service => TyService
  | Named_operation => TyOperation
  | Named_resource => TyResource
  | Named_member => TyMember
  end.

(** [Function::new], selector/mod.rs:1423-1429. *)
Definition function_new (name : str) (args : list selector) : result expr :=
  match args with [] => Panic | _ => Ok (XFunction name args) end.
(** [From<SelectorBuilder> for Selector], builder/selector.rs:73-78, and [From<&mut SelectorBuilder>],
    88-93: asserts that there are expressions. *)
Definition selector_of (b : list expr) : result selector := match b with [] => Panic | _ => Ok b end.
Fixpoint selectors_of (bs : list (list expr)) : result (list selector) :=
  match bs with
  | [] => Ok []
  | b :: bs' => s <- selector_of b ;; l <- selectors_of bs' ;; Ok (s :: l)
  end.
(** [SelectorBuilder::add], 103-106, and [from], 109-111. *)
Definition sb_add (b : list expr) (e : expr) : list expr := b ++ [e].
Definition sb_from (e : expr) : list expr := [e].
(** [function_from], 394-401, and [add_function_from], 404-415. *)
Definition sb_function_from (name : str) (args : list (list expr)) : result (list expr) :=
  l <- selectors_of args ;; e <- function_new name l ;; Ok (sb_from e).
Definition sb_add_function_from (b : list expr) (name : str) (args : list (list expr)) : result (list expr) :=
  l <- selectors_of args ;; e <- function_new name l ;; Ok (sb_add b e).
(** The methods with a fixed function name: [fn_test] (418), [fn_is] (428), [fn_not] (438),
    [fn_topdown] (448), and the [add_..._function] after each. *)
Inductive function_method := Fn_test | Fn_is | Fn_not | Fn_topdown.
Definition start_function (m : function_method) (args : list (list expr)) : result (list expr) :=
  match m with
  | Fn_test => sb_function_from (lit "test") args
  | Fn_is => sb_function_from (lit "is") args
  | Fn_not => sb_function_from (lit "not") args
  | Fn_topdown => sb_function_from (lit "topdown") args
  end.
Definition add_function_method (b : list expr) (m : function_method) (args : list (list expr)) : result (list expr) :=
  match m with
  | Fn_test => sb_add_function_from b (lit "test") args
  | Fn_is => sb_add_function_from b (lit "is") args
  | Fn_not => sb_add_function_from b (lit "not") args
  | Fn_topdown => sb_add_function_from b (lit "topdown") args
  end.
(** [forward_undirected] .. [reverse_directed], 468-515, and their [add_...]. *)
Inductive neighbor_method :=
| Nb_forward_undirected | Nb_reverse_undirected | Nb_forward_recursive_directed
| Nb_forward_directed (path : list str) | Nb_reverse_directed (path : list str).
Definition start_neighbor (m : neighbor_method) : list expr :=
  match m with
  | Nb_forward_undirected => sb_from (XNeighbor NbForward)
  | Nb_reverse_undirected => sb_from (XNeighbor NbReverse)
  | Nb_forward_recursive_directed => sb_from (XNeighbor NbRecursive)
  | Nb_forward_directed p => sb_from (XNeighbor (NbForwardDirected p))
  | Nb_reverse_directed p => sb_from (XNeighbor (NbReverseDirected p))
  end.
Definition add_neighbor_method (b : list expr) (m : neighbor_method) : list expr :=
  match m with
  | Nb_forward_undirected => sb_add b (XNeighbor NbForward)
  | Nb_reverse_undirected => sb_add b (XNeighbor NbReverse)
  | Nb_forward_recursive_directed => sb_add b (XNeighbor NbRecursive)
  | Nb_forward_directed p => sb_add b (XNeighbor (NbForwardDirected p))
  | Nb_reverse_directed p => sb_add b (XNeighbor (NbReverseDirected p))
  end.
(** [variable_reference_from], 528, [add_variable_reference_from], 533; [variable_definition_from],
    548-550, [add_variable_definition_from], 553-559. *)
Definition sb_reference_from (n : str) : list expr := sb_from (XReference n).
Definition sb_add_reference_from (b : list expr) (n : str) : list expr := sb_add b (XReference n).
Definition sb_definition_from (n : str) (sel : list expr) : result (list expr) :=
  s <- selector_of sel ;; Ok (sb_from (XDefine n s)).
Definition sb_add_definition_from (b : list expr) (n : str) (sel : list expr) : result (list expr) :=
  s <- selector_of sel ;; Ok (sb_add b (XDefine n s)).
(** [attribute], 562, [add_attribute], 567, [scoped_attribute], 587, [add_scoped_attribute], 592;
    [add_attribute_from], 572-584. *)
Definition sb_attribute (a : attribute) : list expr := sb_from (XAttribute a).
Definition sb_add_attribute (b : list expr) (a : attribute) : list expr := sb_add b (XAttribute a).
Definition sb_scoped (a : scoped) : list expr := sb_from (XScoped a).
Definition sb_add_scoped (b : list expr) (a : scoped) : list expr := sb_add b (XScoped a).
Definition sb_add_attribute_from (b : list expr) (k : key) (c : option comparison_) : list expr :=
  sb_add b (XAttribute match c with None => Attribute k None | Some c => Attribute k (Some c) end).

(** [Key::new], selector/mod.rs:729-734; [array_member!] of the path, 746. *)
Definition key_new (n : str) : key := Key n [].
Definition key_set_path (k : key) (p : list path_segment) : key := Key (key_id k) (array_set (key_path k) p).
Definition key_add_segment (k : key) (p : path_segment) : key := Key (key_id k) (array_add (key_path k) p).
(** The segments of [path_segment_for_id] .. [path_segment_for_function], builder/selector.rs:695-719
    and 965-989. *)
Inductive segment_method := Seg_id (n : str) | Seg_shape (i : shape_id) | Seg_text (s : str) | Seg_number (n : number) | Seg_function (n : str).
Definition segment_of (m : segment_method) : path_segment :=
  match m with
  | Seg_id n => PsValue (SvRoot n)
  | Seg_shape i => PsValue (SvAbsolute i)
  | Seg_text s => PsValue (SvText s)
  | Seg_number n => PsValue (SvNumber n)
  | Seg_function n => PsFunction n
  end.
(** [AttributeComparison::new] and [new_case_insensitive], selector/mod.rs:823-838. *)
Definition comparison_new (c : comparator) (l : list sel_value) : comparison_ := Comparison c l false.
Definition comparison_new_ci (c : comparator) (l : list sel_value) : comparison_ := Comparison c l true.
(** [bool::to_string]. *)
Definition bool_str (b : bool) : str := if b then lit "true" else lit "false".

(** ** [AttributeBuilder], builder/selector.rs:642-844 *)

(** [named] .. [named_var], 644-676. *)
Definition ab_named (n : str) : attribute := Attribute (key_new n) None.
Definition ab_named_id : attribute := Attribute (key_new (lit "id")) None.
Definition ab_named_service : attribute := Attribute (key_new (lit "service")) None.
Definition ab_named_trait : attribute := Attribute (key_new (lit "trait")) None.
Definition ab_named_var : attribute := Attribute (key_new (lit "var")) None.
(** [path], 679-684, [path_segment], 687-692. *)
Definition ab_path (a : attribute) p : attribute := Attribute (key_set_path (at_key a) p) (at_comparison a).
Definition ab_path_segment (a : attribute) p : attribute := Attribute (key_add_segment (at_key a) p) (at_comparison a).
(** [compare], 722-725. *)
Definition ab_compare (a : attribute) (c : comparison_) : attribute := Attribute (at_key a) (Some c).
(** [string_compare], 728-739, and the methods that call it, 742-773. *)
Definition ab_string_compare (a : attribute) (c : comparator) (rhs : list sel_value) (ci : bool) : attribute :=
  ab_compare a (if ci then comparison_new_ci c rhs else comparison_new c rhs).
Definition ab_string_equal a rhs ci := ab_string_compare a CmEqual rhs ci.
Definition ab_string_not_equal a rhs ci := ab_string_compare a CmNotEqual rhs ci.
Definition ab_string_starts_with a rhs ci := ab_string_compare a CmStartsWith rhs ci.
Definition ab_string_ends_with a rhs ci := ab_string_compare a CmEndsWith rhs ci.
Definition ab_string_contains a rhs ci := ab_string_compare a CmContains rhs ci.
Definition ab_string_exists a (rhs : bool) ci := ab_string_compare a CmExists [SvText (bool_str rhs)] ci.
(** [number_greater] .. [number_less_or_equal], 776-817. *)
Definition ab_number_greater a (rhs : list number) := ab_compare a (comparison_new CmGreater (map SvNumber rhs)).
Definition ab_number_greater_or_equal a (rhs : list number) := ab_compare a (comparison_new CmGreaterEqual (map SvNumber rhs)).
Definition ab_number_less a (rhs : list number) := ab_compare a (comparison_new CmLess (map SvNumber rhs)).
Definition ab_number_less_or_equal a (rhs : list number) := ab_compare a (comparison_new CmLessEqual (map SvNumber rhs)).
(** [projection_equal] .. [projection_proper_subset], 820-843. *)
Definition ab_projection_equal a rhs := ab_compare a (comparison_new CmProjEqual rhs).
Definition ab_projection_not_equal a rhs := ab_compare a (comparison_new CmProjNotEqual rhs).
Definition ab_projection_subset a rhs := ab_compare a (comparison_new CmProjSubset rhs).
Definition ab_projection_proper_subset a rhs := ab_compare a (comparison_new CmProjProperSubset rhs).
(** [From<AttributeBuilder> for SelectorExpression], 600-604, and for [Selector], 636-640. *)
Definition ab_selector (a : attribute) : result selector := selector_of (sb_from (XAttribute a)).

(** ** [ScopedAttributeBuilder], builder/selector.rs:65-68, 849-1144 *)

Record scoped_builder := SAB { sab_key : option key; sab_assertions : list assertion }.
(** [ScopedAttributeAssertion::new] and [new_case_insensitive], selector/mod.rs:1223-1245. *)
Definition assertion_new (l : scoped_value) (c : comparator) (r : list scoped_value) : assertion := Assertion l c r false.
Definition assertion_new_ci (l : scoped_value) (c : comparator) (r : list scoped_value) : assertion := Assertion l c r true.
(** [Default], 849-856; [named] .. [new_var], 907-944. *)
Definition sab_default : scoped_builder := SAB None [].
Definition sab_named (n : str) : scoped_builder := SAB (Some (key_new n)) [].
Definition sab_new_id : scoped_builder := SAB (Some (key_new (lit "id"))) [].
Definition sab_new_service : scoped_builder := SAB (Some (key_new (lit "service"))) [].
Definition sab_new_trait : scoped_builder := SAB (Some (key_new (lit "trait"))) [].
Definition sab_new_var : scoped_builder := SAB (Some (key_new (lit "var"))) [].
(** [path], 947-953, [path_segment], 956-962: panic without a key. *)
Definition sab_path (b : scoped_builder) p : result scoped_builder :=
  match sab_key b with Some k => Ok (SAB (Some (key_set_path k p)) (sab_assertions b)) | None => Panic end.
Definition sab_path_segment (b : scoped_builder) p : result scoped_builder :=
  match sab_key b with Some k => Ok (SAB (Some (key_add_segment k p)) (sab_assertions b)) | None => Panic end.
(** [assertion], 992-995. *)
Definition sab_assertion (b : scoped_builder) (a : assertion) : scoped_builder := SAB (sab_key b) (sab_assertions b ++ [a]).
(** [string_assertion], 998-1010, and the methods that call it, 1013-1070. *)
Definition sab_string_assertion b l c r (ci : bool) : scoped_builder :=
  sab_assertion b (if ci then assertion_new_ci l c r else assertion_new l c r).
Definition sab_string_equal b l (r : scoped_value) ci := sab_string_assertion b l CmEqual [r] ci.
Definition sab_string_not_equal b l (r : scoped_value) ci := sab_string_assertion b l CmNotEqual [r] ci.
Definition sab_string_starts_with b l (r : scoped_value) ci := sab_string_assertion b l CmStartsWith [r] ci.
Definition sab_string_ends_with b l (r : scoped_value) ci := sab_string_assertion b l CmEndsWith [r] ci.
Definition sab_string_contains b l (r : scoped_value) ci := sab_string_assertion b l CmContains [r] ci.
Definition sab_string_exists b l (r : bool) := sab_string_assertion b l CmExists [ScValue (SvText (bool_str r))] false.
Section Numbers.
  (** [Display for f64]. *)
  Variable f64_str : Z -> str.
  (** [number_greater] .. [number_less_or_equal], 1073-1106: the number becomes a text. *)
  Definition sab_number_greater b l (r : number) := sab_assertion b (assertion_new l CmGreater [ScValue (SvText (number_display f64_str r))]).
  Definition sab_number_greater_or_equal b l (r : number) := sab_assertion b (assertion_new l CmGreaterEqual [ScValue (SvText (number_display f64_str r))]).
  Definition sab_number_less b l (r : number) := sab_assertion b (assertion_new l CmLess [ScValue (SvText (number_display f64_str r))]).
  Definition sab_number_less_or_equal b l (r : number) := sab_assertion b (assertion_new l CmLessEqual [ScValue (SvText (number_display f64_str r))]).

  (** [AttributeComparison::string_starts_with], selector/mod.rs:851-856, and
      [ScopedAttributeAssertion::string_starts_with], 1258-1264: [to_string] of the value, which
      writes texts in quotes. The other constructors, 841-911 and 1248-1339, pass the value on. *)
  Definition cmp_string_equal (v : sel_value) : comparison_ := comparison_new CmEqual [v].
  Definition cmp_string_not_equal (v : sel_value) : comparison_ := comparison_new CmNotEqual [v].
  Definition cmp_string_starts_with (v : sel_value) : comparison_ := comparison_new CmStartsWith [SvText (sel_value_display f64_str v)].
  Definition cmp_string_ends_with (v : sel_value) : comparison_ := comparison_new CmEndsWith [v].
  Definition cmp_string_contains (v : sel_value) : comparison_ := comparison_new CmContains [v].
  Definition cmp_string_exists (b : bool) : comparison_ := comparison_new CmExists [SvText (bool_str b)].
  Definition cmp_number_greater (n : number) : comparison_ := comparison_new CmGreater [SvNumber n].
  Definition cmp_number_greater_or_equal (n : number) : comparison_ := comparison_new CmGreaterEqual [SvNumber n].
  Definition cmp_number_less (n : number) : comparison_ := comparison_new CmLess [SvNumber n].
  Definition cmp_number_less_or_equal (n : number) : comparison_ := comparison_new CmLessEqual [SvNumber n].
  Definition cmp_projection_equal (v : sel_value) : comparison_ := comparison_new CmProjEqual [v].
  Definition cmp_projection_not_equal (v : sel_value) : comparison_ := comparison_new CmProjNotEqual [v].
  Definition cmp_projection_subset (l : list sel_value) : comparison_ := comparison_new CmProjSubset l.
  Definition cmp_projection_proper_subset (l : list sel_value) : comparison_ := comparison_new CmProjProperSubset l.
  Definition asn_string_starts_with (l r : scoped_value) : assertion :=
    assertion_new l CmStartsWith [ScValue (SvText (scoped_value_display f64_str r))].
End Numbers.
(** [projection_equal] .. [projection_proper_subset], builder/selector.rs:1109-1142. *)
Definition sab_projection_equal b l (r : scoped_value) := sab_assertion b (assertion_new l CmProjEqual [r]).
Definition sab_projection_not_equal b l (r : scoped_value) := sab_assertion b (assertion_new l CmProjNotEqual [r]).
Definition sab_projection_subset b l (r : list scoped_value) := sab_assertion b (assertion_new l CmProjSubset r).
Definition sab_projection_proper_subset b l (r : list scoped_value) := sab_assertion b (assertion_new l CmProjProperSubset r).
(** [ScopedAttributeSelector::new], selector/mod.rs:1088-1094, and [with_key], 1097-1103; the
    conversions of builder/selector.rs:858-905. *)
Definition sab_scoped (b : scoped_builder) : result scoped :=
  match sab_assertions b with [] => Panic | l => Ok (Scoped (sab_key b) l) end.
Definition sab_selector (b : scoped_builder) : result selector :=
  s <- sab_scoped b ;; selector_of (sb_from (XScoped s)).
