(** Model of atelier-core/src/model/selector/mod.rs: selectors and their text; and of the enumeration
    [ErrorSource], atelier-core/src/builder/traits.rs. *)
From Verif.Model Require Export Values Shapes.

(** [ShapeType], selector/mod.rs:17-73. *)
Inductive shape_type :=
| TyAny | TyNumber | TySimpleType | TyCollection | TyBlob | TyBoolean | TyDocument | TyString | TyInteger
| TyByte | TyShort | TyLong | TyFloat | TyDouble | TyBigDecimal | TyBigInteger | TyTimestamp | TyList | TySet
| TyMap | TyStructure | TyUnion | TyService | TyOperation | TyResource | TyMember.
(** [Display for ShapeType], selector/mod.rs:512-547. *)
Definition shape_type_display (t : shape_type) : str :=
  match t with
  | TyAny => "*" | TyNumber => "number" | TySimpleType => "simpleType" | TyCollection => "collection"
  | TyBlob => "blob" | TyBoolean => "boolean" | TyDocument => "document" | TyString => "string"
  | TyInteger => "integer" | TyByte => "byte" | TyShort => "short" | TyLong => "long" | TyFloat => "float"
  | TyDouble => "double" | TyBigDecimal => "bigDecimal" | TyBigInteger => "bigInteger"
  | TyTimestamp => "timestamp" | TyList => "list" | TySet => "set" | TyMap => "map"
  | TyStructure => "structure" | TyUnion => "union" | TyService => "service" | TyOperation => "operation"
  | TyResource => "resource" | TyMember => "member"
  end.
(** A Rust [match] on strings: the first arm whose literal is the string. *)
Fixpoint match_str {A} (arms : list (string * A)) (s : str) : option A :=
  match arms with
  | [] => None
  | (k, a) :: arms' => if str_eqb (lit k) s then Some a else match_str arms' s
  end.
(** [FromStr for ShapeType], selector/mod.rs:549-583. *)
Definition shape_type_arms : list (string * shape_type) :=
  [("*", TyAny); ("number", TyNumber); ("simpleType", TySimpleType); ("collection", TyCollection);
   ("blob", TyBlob); ("boolean", TyBoolean); ("document", TyDocument); ("string", TyString);
   ("integer", TyInteger); ("byte", TyByte); ("short", TyShort); ("long", TyLong); ("float", TyFloat);
   ("double", TyDouble); ("bigDecimal", TyBigDecimal); ("bigInteger", TyBigInteger);
   ("timestamp", TyTimestamp); ("list", TyList); ("set", TySet); ("map", TyMap);
   ("structure", TyStructure); ("union", TyUnion); ("service", TyService); ("operation", TyOperation);
   ("resource", TyResource); ("member", TyMember)]%string.
Definition shape_type_from_str (s : str) : result shape_type :=
  match match_str shape_type_arms s with Some t => Ok t | None => Err (EInvalidSelectorExpression s) end.

(** [Comparator], selector/mod.rs:127-233; [Display], 751-774; [FromStr], 776-799. *)
Inductive comparator :=
| CmEqual | CmNotEqual | CmStartsWith | CmEndsWith | CmContains | CmExists
| CmGreater | CmGreaterEqual | CmLess | CmLessEqual
| CmProjEqual | CmProjNotEqual | CmProjSubset | CmProjProperSubset.
Definition comparator_display (c : comparator) : str :=
  match c with
  | CmEqual => "=" | CmNotEqual => "!=" | CmStartsWith => "^=" | CmEndsWith => "$=" | CmContains => "*="
  | CmExists => "?=" | CmGreater => ">" | CmGreaterEqual => ">=" | CmLess => "<" | CmLessEqual => "<="
  | CmProjEqual => "{=}" | CmProjNotEqual => "{!=}" | CmProjSubset => "{<}" | CmProjProperSubset => "{<<}"
  end.
Definition comparator_arms : list (string * comparator) :=
  [("=", CmEqual); ("!=", CmNotEqual); ("^=", CmStartsWith); ("$=", CmEndsWith); ("*=", CmContains);
   ("?=", CmExists); (">", CmGreater); (">=", CmGreaterEqual); ("<", CmLess); ("<=", CmLessEqual);
   ("{=}", CmProjEqual); ("{!=}", CmProjNotEqual); ("{<}", CmProjSubset); ("{<<}", CmProjProperSubset)]%string.
Definition comparator_from_str (s : str) : result comparator :=
  match match_str comparator_arms s with Some t => Ok t | None => Err (EInvalidSelectorExpression s) end.

(** [ErrorSource], builder/traits.rs:25-30; [Display], 253-264; [FromStr], 266-276. *)
Inductive error_source := EClient | EServer.
Definition error_source_display (e : error_source) : str :=
  match e with EClient => "client" | EServer => "server" end.
Definition error_source_from_str (s : str) : result error_source :=
  match match_str [("client", EClient); ("server", EServer)]%string s with
  | Some t => Ok t
  | None => Err (EInvalidTraitValue (lit "error"))
  end.

(** [Value], selector/mod.rs:79-88; [KeyPathSegment], 93-98; [Key], 104-107. *)
Inductive sel_value :=
| SvText (s : str)
| SvNumber (n : number)
| SvRoot (n : str)
| SvAbsolute (id : shape_id).
Inductive path_segment :=
| PsValue (v : sel_value)
| PsFunction (n : str).
Record key := Key { key_id : str; key_path : list path_segment }.
(** [AttributeComparison], selector/mod.rs:240-244; [AttributeSelector], 250-253. *)
Record comparison_ := Comparison { cp_comparator : comparator; cp_values : list sel_value; cp_insensitive : bool }.
Record attribute := Attribute { at_key : key; at_comparison : option comparison_ }.
(** [ScopedValue], selector/mod.rs:269-274; [ScopedAttributeAssertion], 309-314;
    [ScopedAttributeSelector], 260-263. *)
Inductive scoped_value :=
| ScValue (v : sel_value)
| ScContext (path : list path_segment).
Record assertion :=
  Assertion { as_lhs : scoped_value; as_comparator : comparator; as_rhs : list scoped_value; as_insensitive : bool }.
Record scoped := Scoped { sc_key : option key; sc_assertions : list assertion }.
(** [NeighborSelector], selector/mod.rs:323-425. *)
Inductive neighbor :=
| NbForward | NbReverse | NbForwardDirected (l : list str) | NbReverseDirected (l : list str) | NbRecursive.
(** [SelectorExpression], selector/mod.rs:468-484, with [Function], 430-433, [VariableDefinition],
    445-448 and [VariableReference], 461-463; [Selector], 496-498, is its list of expressions. *)
Inductive expr :=
| XShapeType (t : shape_type)
| XAttribute (a : attribute)
| XScoped (s : scoped)
| XNeighbor (n : neighbor)
| XFunction (name : str) (args : list (list expr))
| XDefine (name : str) (sel : list expr)
| XReference (name : str).
Notation selector := (list expr).

Section Display.
  (** [Display for f64] of the standard library. *)
  Variable f64_str : Z -> str.

  (** [Display for Value], selector/mod.rs:593-606. *)
  Definition sel_value_display (v : sel_value) : str :=
    match v with
    | SvText s => [dquote] ++ s ++ [dquote]
    | SvNumber n => number_display f64_str n
    | SvRoot n => n
    | SvAbsolute id => sid_display id
    end.
  (** [Display for KeyPathSegment], 664-675; [Display for Key], 697-716. *)
  Definition segment_display (p : path_segment) : str :=
    match p with PsValue v => sel_value_display v | PsFunction n => lit "(" ++ n ++ lit ")" end.
  Definition path_display (l : list path_segment) : str := join (lit "|") (map segment_display l).
  Definition key_display (k : key) : str :=
    key_id k ++ match key_path k with [] => [] | l => lit "|" ++ path_display l end.
  (** [Display for AttributeComparison], 802-820; [Display for AttributeSelector], 924-936. *)
  Definition insensitive_display (b : bool) : str := if b then lit " i" else [].
  Definition comparison_display (c : comparison_) : str :=
    lit " " ++ comparator_display (cp_comparator c) ++ lit " "
    ++ join (lit ", ") (map sel_value_display (cp_values c)) ++ insensitive_display (cp_insensitive c).
  Definition attribute_display (a : attribute) : str :=
    lit "[" ++ key_display (at_key a)
    ++ match at_comparison a with None => [] | Some c => comparison_display c end ++ lit "]".
  (** [Display for ScopedValue], 1115-1131; [Display for ScopedAttributeAssertion], 1202-1220;
      [Display for ScopedAttributeSelector], 1062-1078. *)
  Definition scoped_value_display (v : scoped_value) : str :=
    match v with ScValue v => sel_value_display v | ScContext p => lit "@{" ++ path_display p ++ lit "}" end.
  Definition assertion_display (a : assertion) : str :=
    scoped_value_display (as_lhs a) ++ lit " " ++ comparator_display (as_comparator a) ++ lit " "
    ++ join (lit ", ") (map scoped_value_display (as_rhs a)) ++ insensitive_display (as_insensitive a).
  Definition scoped_display (s : scoped) : str :=
    lit "[@" ++ match sc_key s with None => [] | Some k => key_display k end ++ lit ": "
    ++ join (lit " && ") (map assertion_display (sc_assertions s)) ++ lit "]".
  (** [Display for NeighborSelector], 1352-1377. *)
  Definition neighbor_display (n : neighbor) : str :=
    match n with
    | NbForward => lit ">"
    | NbReverse => lit "<"
    | NbForwardDirected l => lit "-[" ++ join (lit ", ") l ++ lit "]->"
    | NbReverseDirected l => lit "<-[" ++ join (lit ", ") l ++ lit "]-"
    | NbRecursive => lit "~>"
    end.
  (** [Display for SelectorExpression], 979-995; for [Function], 1400-1413; for [VariableDefinition],
      1441-1445; for [VariableReference], 1471-1475; for [Selector], 1027-1038. *)
  Fixpoint expr_display (x : expr) : str :=
    match x with
    | XShapeType t => shape_type_display t
    | XAttribute a => attribute_display a
    | XScoped s => scoped_display s
    | XNeighbor n => neighbor_display n
    | XFunction n args => lit ":" ++ n ++ lit "(" ++ join (lit ", ") (map (fun sel => join (lit " ") (map expr_display sel)) args) ++ lit ")"
    | XDefine n sel => lit "$" ++ n ++ lit "(" ++ join (lit " ") (map expr_display sel) ++ lit ")"
    | XReference n => lit "${" ++ n ++ lit "}"
    end.
  Definition selector_display (s : selector) : str := join (lit " ") (map expr_display s).
End Display.
