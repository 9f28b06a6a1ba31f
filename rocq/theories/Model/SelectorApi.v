(** The objects of atelier-core/src/model/selector/mod.rs as a program changes them: equality, the
    methods the member macros of atelier-core/src/macros.rs give them, constructors, conversions
    and the [is_]/[as_] accessors. *)
From Verif.Model Require Export Selector.
From Verif.Model Require Import ShapeApi.
From Verif.Model Require Export SelectorBuild.

(** ** Equality: [#[derive(PartialEq)]] of every type, selector/mod.rs:19-495. An [Identifier] is
    compared by identity.rs:124-128 ([ident_eqb]), a [ShapeID] by its derived equality
    ([sid_eqb]), a [Number] by values.rs:23 ([number_eqb]). *)

(** [PartialEq for Vec] and [Option] of the standard library. *)
Section Vec.
  Context {A : Type} (eqb : A -> A -> bool).
  Fixpoint vec_eqb (l k : list A) : bool :=
    match l, k with
    | [], [] => true
    | x :: l', y :: k' => eqb x y && vec_eqb l' k'
    | _, _ => false
    end.
  Definition option_eqb (a b : option A) : bool :=
    match a, b with Some x, Some y => eqb x y | None, None => true | _, _ => false end.
End Vec.
(** [ShapeType], 19-72, and [Comparator], 126-234: the same variant. *)
Definition shape_type_eq_dec (a b : shape_type) : {a = b} + {a <> b}.
Proof. decide equality. Defined.
Definition comparator_eq_dec (a b : comparator) : {a = b} + {a <> b}.
Proof. decide equality. Defined.
Definition shape_type_eqb (a b : shape_type) : bool := if shape_type_eq_dec a b then true else false.
Definition comparator_eqb (a b : comparator) : bool := if comparator_eq_dec a b then true else false.
(** [Value], 78-88; [KeyPathSegment], 92-98; [Key], 103-107. *)
Definition sel_value_eqb (a b : sel_value) : bool :=
  match a, b with
  | SvText s, SvText t => str_eqb s t
  | SvNumber n, SvNumber m => number_eqb n m
  | SvRoot n, SvRoot m => ident_eqb n m
  | SvAbsolute i, SvAbsolute j => sid_eqb i j
  | _, _ => false
  end.
Definition segment_eqb (a b : path_segment) : bool :=
  match a, b with
  | PsValue v, PsValue w => sel_value_eqb v w
  | PsFunction n, PsFunction m => ident_eqb n m
  | _, _ => false
  end.
Definition key_eqb (a b : key) : bool := ident_eqb (key_id a) (key_id b) && vec_eqb segment_eqb (key_path a) (key_path b).
(** [AttributeComparison], 239-244; [AttributeSelector], 249-253. *)
Definition comparison_eqb (a b : comparison_) : bool :=
  comparator_eqb (cp_comparator a) (cp_comparator b) && vec_eqb sel_value_eqb (cp_values a) (cp_values b)
  && Bool.eqb (cp_insensitive a) (cp_insensitive b).
Definition attribute_eqb (a b : attribute) : bool :=
  key_eqb (at_key a) (at_key b) && option_eqb comparison_eqb (at_comparison a) (at_comparison b).
(** [ScopedValue], 268-274; [ScopedAttributeAssertion], 308-314; [ScopedAttributeSelector],
    259-263. *)
Definition scoped_value_eqb (a b : scoped_value) : bool :=
  match a, b with
  | ScValue v, ScValue w => sel_value_eqb v w
  | ScContext p, ScContext q => vec_eqb segment_eqb p q
  | _, _ => false
  end.
Definition assertion_eqb (a b : assertion) : bool :=
  scoped_value_eqb (as_lhs a) (as_lhs b) && comparator_eqb (as_comparator a) (as_comparator b)
  && vec_eqb scoped_value_eqb (as_rhs a) (as_rhs b) && Bool.eqb (as_insensitive a) (as_insensitive b).
Definition scoped_eqb (a b : scoped) : bool :=
  option_eqb key_eqb (sc_key a) (sc_key b) && vec_eqb assertion_eqb (sc_assertions a) (sc_assertions b).
(** [NeighborSelector], 322-425. *)
Definition neighbor_eqb (a b : neighbor) : bool :=
  match a, b with
  | NbForward, NbForward | NbReverse, NbReverse | NbRecursive, NbRecursive => true
  | NbForwardDirected l, NbForwardDirected k | NbReverseDirected l, NbReverseDirected k => vec_eqb ident_eqb l k
  | _, _ => false
  end.
(** [SelectorExpression], 467-484, with [Function], 429-433, [VariableDefinition], 444-448, and
    [VariableReference], 460-463; [Selector], 495-498. *)
Fixpoint expr_eqb (a b : expr) : bool :=
  match a, b with
  | XShapeType t, XShapeType u => shape_type_eqb t u
  | XAttribute x, XAttribute y => attribute_eqb x y
  | XScoped x, XScoped y => scoped_eqb x y
  | XNeighbor x, XNeighbor y => neighbor_eqb x y
  | XFunction n l, XFunction m k => ident_eqb n m && vec_eqb (vec_eqb expr_eqb) l k
  | XDefine n l, XDefine m k => ident_eqb n m && vec_eqb expr_eqb l k
  | XReference n, XReference m => ident_eqb n m
  | _, _ => false
  end.
Definition selector_eqb (a b : selector) : bool := vec_eqb expr_eqb a b.

(** ** Members. [required_member!] and [boolean_member!] (macros.rs:109-137) assign the argument. *)
Definition required_set {A} (_ x : A) : A := x.

(** *** [Key], 718-746: [From<Identifier>] (718-725), [new] (see [key_new]), [with_path] (737-742) *)
Definition key_from (n : str) : key := Key n [].
Definition key_with_path (n : str) (p : list path_segment) : key := Key n p.
Definition key_set_identifier (k : key) n : key := Key (required_set (key_id k) n) (key_path k).
Definition key_has_path (k : key) : bool := array_has (key_path k).
Definition key_append_path (k : key) p : key := Key (key_id k) (array_append (key_path k) p).
Definition key_remove_segment (k : key) s : key := Key (key_id k) (array_remove segment_eqb (key_path k) s).

(** *** [AttributeComparison], 915-919 *)
Definition cp_set_comparator (c : comparison_) x := Comparison (required_set (cp_comparator c) x) (cp_values c) (cp_insensitive c).
Definition cp_set_insensitive (c : comparison_) x := Comparison (cp_comparator c) (cp_values c) (required_set (cp_insensitive c) x).
Definition cp_has_values (c : comparison_) : bool := array_has (cp_values c).
Definition cp_set_values (c : comparison_) l := Comparison (cp_comparator c) (array_set (cp_values c) l) (cp_insensitive c).
Definition cp_add_value (c : comparison_) x := Comparison (cp_comparator c) (array_add (cp_values c) x) (cp_insensitive c).
Definition cp_append_values (c : comparison_) l := Comparison (cp_comparator c) (array_append (cp_values c) l) (cp_insensitive c).
Definition cp_remove_value (c : comparison_) x := Comparison (cp_comparator c) (array_remove sel_value_eqb (cp_values c) x) (cp_insensitive c).

(** *** [AttributeSelector]: [From<Key>] (938-945), [new] (955-960), [with_comparison] (963-968),
    members (970-974) *)
Definition attribute_from (k : key) : attribute := Attribute k None.
Definition attribute_new (k : key) : attribute := Attribute k None.
Definition attribute_with_comparison (k : key) (c : comparison_) : attribute := Attribute k (Some c).
Definition at_set_key (a : attribute) k := Attribute (required_set (at_key a) k) (at_comparison a).
Definition at_has_comparison (a : attribute) : bool := optional_has (at_comparison a).
Definition at_set_comparison (a : attribute) c := Attribute (at_key a) (optional_set (at_comparison a) c).
Definition at_unset_comparison (a : attribute) := Attribute (at_key a) (optional_unset (at_comparison a)).

(** *** [Selector]: [Default] (1019-1025), [From<SelectorExpression>] (1040-1046),
    [From<Vec<SelectorExpression>>] (1048-1052), member (1054-1058) *)
Definition selector_default : selector := [].
Definition selector_from (e : expr) : selector := [e].
Definition selector_from_vec (l : list expr) : selector := l.
Definition sl_has_expressions (s : selector) : bool := array_has s.
Definition sl_set_expressions (s : selector) l : selector := array_set s l.
Definition sl_add_expression (s : selector) x : selector := array_add s x.
Definition sl_append_expressions (s : selector) l : selector := array_append s l.
Definition sl_remove_expression (s : selector) x : selector := array_remove expr_eqb s x.

(** *** [ScopedAttributeSelector]: [new] (1088-1094), [with_key] (1097-1103), members (1105-1110) *)
Definition scoped_new (l : list assertion) : result scoped := match l with [] => Panic | _ => Ok (Scoped None l) end.
Definition scoped_with_key (k : key) (l : list assertion) : result scoped := match l with [] => Panic | _ => Ok (Scoped (Some k) l) end.
Definition sc_has_key (s : scoped) : bool := optional_has (sc_key s).
Definition sc_set_key (s : scoped) k := Scoped (optional_set (sc_key s) k) (sc_assertions s).
Definition sc_unset_key (s : scoped) := Scoped (optional_unset (sc_key s)) (sc_assertions s).
Definition sc_has_assertions (s : scoped) : bool := array_has (sc_assertions s).
Definition sc_set_assertions (s : scoped) l := Scoped (sc_key s) (array_set (sc_assertions s) l).
Definition sc_add_assertion (s : scoped) x := Scoped (sc_key s) (array_add (sc_assertions s) x).
Definition sc_append_assertions (s : scoped) l := Scoped (sc_key s) (array_append (sc_assertions s) l).
Definition sc_remove_assertion (s : scoped) x := Scoped (sc_key s) (array_remove assertion_eqb (sc_assertions s) x).

(** *** [ScopedAttributeAssertion]: constructors (1247-1339), members (1341-1347) *)
Definition asn_string_equal (l r : scoped_value) := assertion_new l CmEqual [r].
Definition asn_string_not_equal (l r : scoped_value) := assertion_new l CmNotEqual [r].
Definition asn_string_ends_with (l r : scoped_value) := assertion_new l CmEndsWith [r].
Definition asn_string_contains (l r : scoped_value) := assertion_new l CmContains [r].
Definition asn_string_exists (l : scoped_value) (b : bool) := assertion_new l CmExists [ScValue (SvText (bool_str b))].
Section Numbers.
  (** [Display for f64]. *)
  Variable f64_str : Z -> str.
  Definition asn_number_greater l (n : number) := assertion_new l CmGreater [ScValue (SvText (number_display f64_str n))].
  Definition asn_number_greater_or_equal l (n : number) := assertion_new l CmGreaterEqual [ScValue (SvText (number_display f64_str n))].
  Definition asn_number_less l (n : number) := assertion_new l CmLess [ScValue (SvText (number_display f64_str n))].
  Definition asn_number_less_or_equal l (n : number) := assertion_new l CmLessEqual [ScValue (SvText (number_display f64_str n))].
End Numbers.
Definition asn_projection_equal (l r : scoped_value) := assertion_new l CmProjEqual [r].
Definition asn_projection_not_equal (l r : scoped_value) := assertion_new l CmProjNotEqual [r].
Definition asn_projection_subset (l : scoped_value) (r : list scoped_value) := assertion_new l CmProjSubset r.
Definition asn_projection_proper_subset (l : scoped_value) (r : list scoped_value) := assertion_new l CmProjProperSubset r.
Definition as_set_lhs (a : assertion) x := Assertion (required_set (as_lhs a) x) (as_comparator a) (as_rhs a) (as_insensitive a).
Definition as_set_comparator (a : assertion) x := Assertion (as_lhs a) (required_set (as_comparator a) x) (as_rhs a) (as_insensitive a).
Definition as_set_insensitive (a : assertion) x := Assertion (as_lhs a) (as_comparator a) (as_rhs a) (required_set (as_insensitive a) x).
Definition as_has_values (a : assertion) : bool := array_has (as_rhs a).
Definition as_set_values (a : assertion) l := Assertion (as_lhs a) (as_comparator a) (array_set (as_rhs a) l) (as_insensitive a).
Definition as_add_value (a : assertion) x := Assertion (as_lhs a) (as_comparator a) (array_add (as_rhs a) x) (as_insensitive a).
Definition as_append_values (a : assertion) l := Assertion (as_lhs a) (as_comparator a) (array_append (as_rhs a) l) (as_insensitive a).
Definition as_remove_value (a : assertion) x := Assertion (as_lhs a) (as_comparator a) (array_remove scoped_value_eqb (as_rhs a) x) (as_insensitive a).

(** *** [Function], 429-433 and 1421-1436, [VariableDefinition], 444-448 and 1453-1467,
    [VariableReference], 460-463 and 1489-1496 *)
Record function_ := Function_ { fn_name : str; fn_arguments : list selector }.
Record definition_ := Definition_ { vd_name : str; vd_selector : selector }.
Record reference_ := Reference_ { vr_name : str }.
Definition fn_new (n : str) (l : list selector) : result function_ := match l with [] => Panic | _ => Ok (Function_ n l) end.
Definition fn_set_name (f : function_) n := Function_ (required_set (fn_name f) n) (fn_arguments f).
Definition fn_has_arguments (f : function_) : bool := array_has (fn_arguments f).
Definition fn_set_arguments (f : function_) l := Function_ (fn_name f) (array_set (fn_arguments f) l).
Definition fn_add_argument (f : function_) x := Function_ (fn_name f) (array_add (fn_arguments f) x).
Definition fn_append_arguments (f : function_) l := Function_ (fn_name f) (array_append (fn_arguments f) l).
Definition fn_remove_argument (f : function_) x := Function_ (fn_name f) (array_remove selector_eqb (fn_arguments f) x).
Definition vd_new (n : str) (s : selector) : definition_ := Definition_ n s.
Definition vd_set_name (d : definition_) n := Definition_ (required_set (vd_name d) n) (vd_selector d).
Definition vd_set_selector (d : definition_) s := Definition_ (vd_name d) (required_set (vd_selector d) s).
Definition vr_new (n : str) : reference_ := Reference_ n.
(** [From<Identifier> for VariableReference], 1483-1487; [new_reference], 1464-1466. *)
Definition vr_from (n : str) : reference_ := vr_new n.
Definition vr_set_name (r : reference_) n := Reference_ (required_set (vr_name r) n).
Definition vd_new_reference (d : definition_) : reference_ := vr_new (vd_name d).

(** ** Conversions and accessors ([is_only!], [is_as!], [is_as_array!], macros.rs:31-76) *)

(** [Value], 608-658. [i64.into()] and [f64.into()] are the two variants of [Number]. *)
Definition sv_from_string (s : str) : sel_value := SvText s.
Definition sv_from_number (n : number) : sel_value := SvNumber n.
Definition sv_from_i64 (n : Z) : sel_value := SvNumber (NInteger n).
Definition sv_from_f64 (n : Z) : sel_value := SvNumber (NFloat n).
Definition sv_from_identifier (n : str) : sel_value := SvRoot n.
Definition sv_from_shape_id (i : shape_id) : sel_value := SvAbsolute i.
Definition sv_is_text v := match v with SvText _ => true | _ => false end.
Definition sv_as_text v := match v with SvText s => Some s | _ => None end.
Definition sv_is_number v := match v with SvNumber _ => true | _ => false end.
Definition sv_as_number v := match v with SvNumber s => Some s | _ => None end.
Definition sv_is_root v := match v with SvRoot _ => true | _ => false end.
Definition sv_as_root v := match v with SvRoot s => Some s | _ => None end.
Definition sv_is_absolute v := match v with SvAbsolute _ => true | _ => false end.
Definition sv_as_absolute v := match v with SvAbsolute s => Some s | _ => None end.
(** [KeyPathSegment], 677-693. *)
Definition ps_from_value (v : sel_value) : path_segment := PsValue v.
Definition ps_from_identifier (n : str) : path_segment := PsFunction n.
Definition ps_is_value p := match p with PsValue _ => true | _ => false end.
Definition ps_as_value p := match p with PsValue v => Some v | _ => None end.
Definition ps_is_function p := match p with PsFunction _ => true | _ => false end.
Definition ps_as_function p := match p with PsFunction v => Some v | _ => None end.
(** [ScopedValue], 1134-1198. *)
Definition sc_from_value (v : sel_value) : scoped_value := ScValue v.
Definition sc_from_string (s : str) : scoped_value := sc_from_value (SvText s).
Definition sc_from_number (n : number) : scoped_value := sc_from_value (SvNumber n).
Definition sc_from_i64 (n : Z) : scoped_value := sc_from_value (SvNumber (NInteger n)).
Definition sc_from_f64 (n : Z) : scoped_value := sc_from_value (SvNumber (NFloat n)).
Definition sc_from_identifier (n : str) : scoped_value := sc_from_value (SvRoot n).
Definition sc_from_shape_id (i : shape_id) : scoped_value := sc_from_value (SvAbsolute i).
Definition sc_from_path (p : list path_segment) : scoped_value := ScContext p.
Definition sc_is_value s := match s with ScValue _ => true | _ => false end.
Definition sc_as_value s := match s with ScValue v => Some v | _ => None end.
Definition sc_is_context s := match s with ScContext _ => true | _ => false end.
Definition sc_as_context s := match s with ScContext v => Some v | _ => None end.
(** [NeighborSelector], 1386-1396. *)
Definition nb_is_forward_undirected n := match n with NbForward => true | _ => false end.
Definition nb_is_reverse_undirected n := match n with NbReverse => true | _ => false end.
Definition nb_is_recursive n := match n with NbRecursive => true | _ => false end.
Definition nb_is_forward_directed n := match n with NbForwardDirected _ => true | _ => false end.
Definition nb_as_forward_directed n := match n with NbForwardDirected l => Some l | _ => None end.
Definition nb_is_reverse_directed n := match n with NbReverseDirected _ => true | _ => false end.
Definition nb_as_reverse_directed n := match n with NbReverseDirected l => Some l | _ => None end.
(** [SelectorExpression]: the [From]s at 585-589, 947-951, 1080-1084, 1380-1384, 1415-1419,
    1447-1451, 1477-1481; the accessors at 997-1015. *)
Definition x_from_shape_type (t : shape_type) : expr := XShapeType t.
Definition x_from_attribute (a : attribute) : expr := XAttribute a.
Definition x_from_scoped (s : scoped) : expr := XScoped s.
Definition x_from_neighbor (n : neighbor) : expr := XNeighbor n.
Definition x_from_function (f : function_) : expr := XFunction (fn_name f) (fn_arguments f).
Definition x_from_definition (d : definition_) : expr := XDefine (vd_name d) (vd_selector d).
Definition x_from_reference (r : reference_) : expr := XReference (vr_name r).
Definition x_is_shape_type e := match e with XShapeType _ => true | _ => false end.
Definition x_as_shape_type e := match e with XShapeType t => Some t | _ => None end.
Definition x_is_attribute e := match e with XAttribute _ => true | _ => false end.
Definition x_as_attribute e := match e with XAttribute t => Some t | _ => None end.
Definition x_is_scoped e := match e with XScoped _ => true | _ => false end.
Definition x_as_scoped e := match e with XScoped t => Some t | _ => None end.
Definition x_is_neighbor e := match e with XNeighbor _ => true | _ => false end.
Definition x_as_neighbor e := match e with XNeighbor t => Some t | _ => None end.
Definition x_is_function e := match e with XFunction _ _ => true | _ => false end.
Definition x_as_function e := match e with XFunction n l => Some (Function_ n l) | _ => None end.
Definition x_is_definition e := match e with XDefine _ _ => true | _ => false end.
Definition x_as_definition e := match e with XDefine n s => Some (Definition_ n s) | _ => None end.
Definition x_is_reference e := match e with XReference _ => true | _ => false end.
Definition x_as_reference e := match e with XReference n => Some (Reference_ n) | _ => None end.
