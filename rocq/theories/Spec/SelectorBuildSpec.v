(** What calls on the builders of selectors mean, in terms of the selector language. *)
From Verif.Model Require Import SelectorBuild.
From Verif.Spec Require Export ShapeApiSpec.

(** The word of the selector language for each method. *)
Definition method_text (m : shape_method) : str :=
  lit match m with
  | Named_any_shape => "*"
  | Named_any_number => "number"
  | Named_any_simple_type => "simpleType"
  | Named_any_collection => "collection"
  | Named_blob => "blob"
  | Named_boolean => "boolean"
  | Named_document => "document"
  | Named_string => "string"
  | Named_integer => "integer"
  | Named_byte => "byte"
  | Named_short => "short"
  | Named_long => "long"
  | Named_float => "float"
  | Named_double => "double"
  | Named_big_decimal => "bigDecimal"
  | Named_big_integer => "bigInteger"
  | Named_timestamp => "timestamp"
  | Named_list => "list"
  | Named_set => "set"
  | Named_map => "map"
  | Named_structure => "structure"
  | Named_union => "union"
  | Named_service => "service"
  | Named_operation => "operation"
  | Named_resource => "resource"
  | Named_member => "member"
  end.
Definition function_text (m : function_method) : str :=
  lit match m with Fn_test => "test" | Fn_is => "is" | Fn_not => "not" | Fn_topdown => "topdown" end.

(** The calls that put an expression into a builder, to start it or to add to it. *)
Inductive selector_call :=
| CShape (m : shape_method) | CType (t : shape_type) | CExpression (e : expr)
| CFunction (m : function_method) (args : list (list expr)) | CFunctionFrom (name : str) (args : list (list expr))
| CNeighbor (m : neighbor_method)
| CReference (n : str) | CDefinition (n : str) (sel : list expr)
| CAttribute (a : attribute) | CScoped (s : scoped).
Definition selector_start (c : selector_call) : result (list expr) :=
  match c with
  | CShape m => Ok (sb_from (XShapeType (start_type m)))
  | CType t => Ok (sb_from (XShapeType t))
  | CExpression e => Ok (sb_from e)
  | CFunction m args => start_function m args
  | CFunctionFrom n args => sb_function_from n args
  | CNeighbor m => Ok (start_neighbor m)
  | CReference n => Ok (sb_reference_from n)
  | CDefinition n sel => sb_definition_from n sel
  | CAttribute a => Ok (sb_attribute a)
  | CScoped s => Ok (sb_scoped s)
  end.
Definition selector_add (b : list expr) (c : selector_call) : result (list expr) :=
  match c with
  | CShape m => Ok (sb_add b (XShapeType (add_type m)))
  | CType t => Ok (sb_add b (XShapeType t))
  | CExpression e => Ok (sb_add b e)
  | CFunction m args => add_function_method b m args
  | CFunctionFrom n args => sb_add_function_from b n args
  | CNeighbor m => Ok (add_neighbor_method b m)
  | CReference n => Ok (sb_add_reference_from b n)
  | CDefinition n sel => sb_add_definition_from b n sel
  | CAttribute a => Ok (sb_add_attribute b a)
  | CScoped s => Ok (sb_add_scoped b s)
  end.
(** The selector made by starting with [c], making the calls [cs] and converting. *)
Definition selector_made (c : selector_call) (cs : list selector_call) : result selector :=
  match selector_start c with
  | Ok b => match run selector_add b cs with Ok b' => selector_of b' | Err e => Err e | Panic => Panic end
  | Err e => Err e
  | Panic => Panic
  end.
(** Builders passed as arguments come from such calls, too. *)
Definition arguments (c : selector_call) : list (list expr) :=
  match c with CFunction _ args | CFunctionFrom _ args => args | CDefinition _ sel => [sel] | _ => [] end.
Inductive builder_value : list expr -> Prop :=
| bv_start c b : Forall builder_value (arguments c) -> selector_start c = Ok b -> builder_value b
| bv_add b c b' : builder_value b -> Forall builder_value (arguments c) -> selector_add b c = Ok b' -> builder_value b'.
Definition no_arguments (c : selector_call) : Prop :=
  match c with CFunction _ [] | CFunctionFrom _ [] => True | _ => False end.

Section Text.
  Variable f64_str : Z -> str.
  (** How a call reads in the selector language. *)
  Definition call_text (c : selector_call) : str :=
    match c with
    | CShape m => method_text m
    | CType t => shape_type_display t
    | CExpression e => expr_display f64_str e
    | CFunction m args => lit ":" ++ function_text m ++ lit "(" ++ join (lit ", ") (map (selector_display f64_str) args) ++ lit ")"
    | CFunctionFrom n args => lit ":" ++ n ++ lit "(" ++ join (lit ", ") (map (selector_display f64_str) args) ++ lit ")"
    | CNeighbor Nb_forward_undirected => lit ">"
    | CNeighbor Nb_reverse_undirected => lit "<"
    | CNeighbor Nb_forward_recursive_directed => lit "~>"
    | CNeighbor (Nb_forward_directed p) => lit "-[" ++ join (lit ", ") p ++ lit "]->"
    | CNeighbor (Nb_reverse_directed p) => lit "<-[" ++ join (lit ", ") p ++ lit "]-"
    | CReference n => lit "${" ++ n ++ lit "}"
    | CDefinition n sel => lit "$" ++ n ++ lit "(" ++ selector_display f64_str sel ++ lit ")"
    | CAttribute a => attribute_display f64_str a
    | CScoped s => scoped_display f64_str s
    end.
End Text.

(** ** Attribute selectors *)
Inductive path_call := PPath (p : list path_segment) | PSegment (p : path_segment) | PFor (m : segment_method).
(** The path is what followed the last [path]. *)
Fixpoint path_said (l : list path_call) : list path_segment :=
  match l with
  | [] => []
  | c :: later =>
      (if existsb (fun c => match c with PPath _ => true | _ => false end) later then []
       else match c with
            | PPath p => p
            | PSegment p => [p]
            | PFor (Seg_id n) => [PsValue (SvRoot n)]
            | PFor (Seg_shape i) => [PsValue (SvAbsolute i)]
            | PFor (Seg_text s) => [PsValue (SvText s)]
            | PFor (Seg_number n) => [PsValue (SvNumber n)]
            | PFor (Seg_function n) => [PsFunction n]
            end) ++ path_said later
  end.
Inductive text_relation := REqual | RNotEqual | RStartsWith | REndsWith | RContains.
Inductive number_relation := RGreater | RGreaterOrEqual | RLess | RLessOrEqual.
Inductive projection_relation := RpEqual | RpNotEqual | RpSubset | RpProperSubset.
(** The comparator of the selector language. *)
Definition text_sign (r : text_relation) : str :=
  lit match r with REqual => "=" | RNotEqual => "!=" | RStartsWith => "^=" | REndsWith => "$=" | RContains => "*=" end.
Definition number_sign (r : number_relation) : str :=
  lit match r with RGreater => ">" | RGreaterOrEqual => ">=" | RLess => "<" | RLessOrEqual => "<=" end.
Definition projection_sign (r : projection_relation) : str :=
  lit match r with RpEqual => "{=}" | RpNotEqual => "{!=}" | RpSubset => "{<}" | RpProperSubset => "{<<}" end.

Inductive attribute_call :=
| APath (p : path_call)
| ACompare (c : comparison_)
| AText (r : text_relation) (rhs : list sel_value) (ci : bool)
| AExists (rhs : bool) (ci : bool)
| ANumber (r : number_relation) (rhs : list number)
| AProjection (r : projection_relation) (rhs : list sel_value).
Definition attribute_do (a : attribute) (c : attribute_call) : attribute :=
  match c with
  | APath (PPath p) => ab_path a p
  | APath (PSegment p) => ab_path_segment a p
  | APath (PFor m) => ab_path_segment a (segment_of m)
  | ACompare c => ab_compare a c
  | AText REqual rhs ci => ab_string_equal a rhs ci
  | AText RNotEqual rhs ci => ab_string_not_equal a rhs ci
  | AText RStartsWith rhs ci => ab_string_starts_with a rhs ci
  | AText REndsWith rhs ci => ab_string_ends_with a rhs ci
  | AText RContains rhs ci => ab_string_contains a rhs ci
  | AExists rhs ci => ab_string_exists a rhs ci
  | ANumber RGreater rhs => ab_number_greater a rhs
  | ANumber RGreaterOrEqual rhs => ab_number_greater_or_equal a rhs
  | ANumber RLess rhs => ab_number_less a rhs
  | ANumber RLessOrEqual rhs => ab_number_less_or_equal a rhs
  | AProjection RpEqual rhs => ab_projection_equal a rhs
  | AProjection RpNotEqual rhs => ab_projection_not_equal a rhs
  | AProjection RpSubset rhs => ab_projection_subset a rhs
  | AProjection RpProperSubset rhs => ab_projection_proper_subset a rhs
  end.
Definition truth (b : bool) : str := if b then lit "true" else lit "false".
(** A comparison: the sign, the values, and whether case is ignored. *)
Definition reading (c : comparison_) : str * list sel_value * bool := (comparator_display (cp_comparator c), cp_values c, cp_insensitive c).
Definition comparisons_said (cs : list attribute_call) : list (str * list sel_value * bool) :=
  flat_map (fun c => match c with
    | APath _ => []
    | ACompare c => [reading c]
    | AText r rhs ci => [(text_sign r, rhs, ci)]
    | AExists rhs ci => [(lit "?=", [SvText (truth rhs)], ci)]
    | ANumber r rhs => [(number_sign r, map SvNumber rhs, false)]
    | AProjection r rhs => [(projection_sign r, rhs, false)]
    end) cs.
Definition attribute_path_calls (cs : list attribute_call) : list path_call :=
  flat_map (fun c => match c with APath p => [p] | _ => [] end) cs.
Inductive attribute_start := ANamed (n : str) | ANamedId | ANamedService | ANamedTrait | ANamedVar.
Definition attribute_started (s : attribute_start) : attribute :=
  match s with ANamed n => ab_named n | ANamedId => ab_named_id | ANamedService => ab_named_service | ANamedTrait => ab_named_trait | ANamedVar => ab_named_var end.
Definition attribute_name (s : attribute_start) : str :=
  match s with ANamed n => n | ANamedId => lit "id" | ANamedService => lit "service" | ANamedTrait => lit "trait" | ANamedVar => lit "var" end.

(** ** Scoped attribute selectors *)
Inductive scoped_start := SDefault | SNamed (s : attribute_start).
Definition scoped_started (s : scoped_start) : scoped_builder :=
  match s with
  | SDefault => sab_default
  | SNamed (ANamed n) => sab_named n | SNamed ANamedId => sab_new_id | SNamed ANamedService => sab_new_service
  | SNamed ANamedTrait => sab_new_trait | SNamed ANamedVar => sab_new_var
  end.
Inductive scoped_call :=
| SPath (p : path_call)
| SAssertion (a : assertion)
| SText (r : text_relation) (lhs rhs : scoped_value) (ci : bool)
| SExists (lhs : scoped_value) (rhs : bool)
| SNumber (r : number_relation) (lhs : scoped_value) (rhs : number)
| SProjectionOne (equal : bool) (lhs rhs : scoped_value)
| SProjectionMany (proper : bool) (lhs : scoped_value) (rhs : list scoped_value).
Definition scoped_path_calls (cs : list scoped_call) : list path_call :=
  flat_map (fun c => match c with SPath p => [p] | _ => [] end) cs.
Definition assertion_reading (a : assertion) : scoped_value * str * list scoped_value * bool :=
  (as_lhs a, comparator_display (as_comparator a), as_rhs a, as_insensitive a).
Section Scoped.
  Variable f64_str : Z -> str.
  Definition scoped_do (b : scoped_builder) (c : scoped_call) : result scoped_builder :=
    match c with
    | SPath (PPath p) => sab_path b p
    | SPath (PSegment p) => sab_path_segment b p
    | SPath (PFor m) => sab_path_segment b (segment_of m)
    | SAssertion a => Ok (sab_assertion b a)
    | SText REqual l r ci => Ok (sab_string_equal b l r ci)
    | SText RNotEqual l r ci => Ok (sab_string_not_equal b l r ci)
    | SText RStartsWith l r ci => Ok (sab_string_starts_with b l r ci)
    | SText REndsWith l r ci => Ok (sab_string_ends_with b l r ci)
    | SText RContains l r ci => Ok (sab_string_contains b l r ci)
    | SExists l r => Ok (sab_string_exists b l r)
    | SNumber RGreater l r => Ok (sab_number_greater f64_str b l r)
    | SNumber RGreaterOrEqual l r => Ok (sab_number_greater_or_equal f64_str b l r)
    | SNumber RLess l r => Ok (sab_number_less f64_str b l r)
    | SNumber RLessOrEqual l r => Ok (sab_number_less_or_equal f64_str b l r)
    | SProjectionOne true l r => Ok (sab_projection_equal b l r)
    | SProjectionOne false l r => Ok (sab_projection_not_equal b l r)
    | SProjectionMany false l r => Ok (sab_projection_subset b l r)
    | SProjectionMany true l r => Ok (sab_projection_proper_subset b l r)
    end.
  Definition scoped_made (s : scoped_start) (cs : list scoped_call) : result selector :=
    match run scoped_do (scoped_started s) cs with Ok b => sab_selector b | Err e => Err e | Panic => Panic end.
  (** What was asserted; [number] says what a number is written as. *)
  Definition assertions_said (number_value : number -> sel_value) (cs : list scoped_call) : list (scoped_value * str * list scoped_value * bool) :=
    flat_map (fun c => match c with
      | SPath _ => []
      | SAssertion a => [assertion_reading a]
      | SText r l v ci => [(l, text_sign r, [v], ci)]
      | SExists l v => [(l, lit "?=", [ScValue (SvText (truth v))], false)]
      | SNumber r l n => [(l, number_sign r, [ScValue (number_value n)], false)]
      | SProjectionOne eq l v => [(l, if eq then lit "{=}" else lit "{!=}", [v], false)]
      | SProjectionMany pr l v => [(l, if pr then lit "{<<}" else lit "{<}", v, false)]
      end) cs.
End Scoped.

(** The expression a call stands for: it reads as above, and what is passed in is kept as it is. *)
Definition stands_for (f64_str : Z -> str) (c : selector_call) (e : expr) : Prop :=
  expr_display f64_str e = call_text f64_str c
  /\ match c with
     | CExpression x => e = x
     | CType t => e = XShapeType t
     | CAttribute a => e = XAttribute a
     | CScoped s => e = XScoped s
     | CFunctionFrom n args => e = XFunction n args
     | CFunction m args => e = XFunction (function_text m) args
     | CDefinition n sel => e = XDefine n sel
     | CReference n => e = XReference n
     | CShape _ => exists t, e = XShapeType t
     | CNeighbor _ => exists n, e = XNeighbor n
     end.
