(** When two selectors are equal, and what histories of calls on the parts of a selector mean. *)
From Verif.Model Require Import ShapeApi SelectorApi.
From Verif.Spec Require Export ModelSpec FluentSpec SelectorSpec.
From Verif.Spec Require ShapeApiSpec.

(** ** Equality: the same parts, with names compared without regard to ASCII case and floats as
    floats (the zeros are equal, NaN equals nothing) *)
Definition equal_number (a b : number) : Prop :=
  match a, b with
  | NInteger n, NInteger m => n = m
  | NFloat x, NFloat y => same_float x y
  | _, _ => False
  end.
Inductive equal_sel : sel_value -> sel_value -> Prop :=
| es_text s : equal_sel (SvText s) (SvText s)
| es_number a b : equal_number a b -> equal_sel (SvNumber a) (SvNumber b)
| es_root a b : same_name a b -> equal_sel (SvRoot a) (SvRoot b)
| es_absolute a b : same_id a b -> equal_sel (SvAbsolute a) (SvAbsolute b).
Inductive equal_segment : path_segment -> path_segment -> Prop :=
| eg_value a b : equal_sel a b -> equal_segment (PsValue a) (PsValue b)
| eg_function a b : same_name a b -> equal_segment (PsFunction a) (PsFunction b).
Inductive equal_key : key -> key -> Prop :=
| ek a b p q : same_name a b -> Forall2 equal_segment p q -> equal_key (Key a p) (Key b q).
Inductive equal_comparison : comparison_ -> comparison_ -> Prop :=
| ec c l k i : Forall2 equal_sel l k -> equal_comparison (Comparison c l i) (Comparison c k i).
Inductive equal_attribute : attribute -> attribute -> Prop :=
| ea a b c d : equal_key a b -> opt_rel equal_comparison c d -> equal_attribute (Attribute a c) (Attribute b d).
Inductive equal_scoped_value : scoped_value -> scoped_value -> Prop :=
| ev_value a b : equal_sel a b -> equal_scoped_value (ScValue a) (ScValue b)
| ev_context p q : Forall2 equal_segment p q -> equal_scoped_value (ScContext p) (ScContext q).
Inductive equal_assertion : assertion -> assertion -> Prop :=
| eas a b c l k i :
    equal_scoped_value a b -> Forall2 equal_scoped_value l k -> equal_assertion (Assertion a c l i) (Assertion b c k i).
Inductive equal_scoped : scoped -> scoped -> Prop :=
| esc a b l k : opt_rel equal_key a b -> Forall2 equal_assertion l k -> equal_scoped (Scoped a l) (Scoped b k).
Inductive equal_neighbor : neighbor -> neighbor -> Prop :=
| en_forward : equal_neighbor NbForward NbForward
| en_reverse : equal_neighbor NbReverse NbReverse
| en_recursive : equal_neighbor NbRecursive NbRecursive
| en_forward_directed l k : Forall2 same_name l k -> equal_neighbor (NbForwardDirected l) (NbForwardDirected k)
| en_reverse_directed l k : Forall2 same_name l k -> equal_neighbor (NbReverseDirected l) (NbReverseDirected k).
Inductive equal_expr : expr -> expr -> Prop :=
| ex_shape_type t : equal_expr (XShapeType t) (XShapeType t)
| ex_attribute a b : equal_attribute a b -> equal_expr (XAttribute a) (XAttribute b)
| ex_scoped a b : equal_scoped a b -> equal_expr (XScoped a) (XScoped b)
| ex_neighbor a b : equal_neighbor a b -> equal_expr (XNeighbor a) (XNeighbor b)
| ex_function a b l k : same_name a b -> Forall2 (Forall2 equal_expr) l k -> equal_expr (XFunction a l) (XFunction b k)
| ex_define a b l k : same_name a b -> Forall2 equal_expr l k -> equal_expr (XDefine a l) (XDefine b k)
| ex_reference a b : same_name a b -> equal_expr (XReference a) (XReference b).
Definition equal_selector : selector -> selector -> Prop := Forall2 equal_expr.
(** Some value in the expression, at any depth, is NaN. *)
Definition mentions_nan (x : expr) : Prop := exists b, In (SvNumber (NFloat b)) (expr_values x) /\ f64_is_nan b = true.

(** ** Lists that calls change *)
Inductive change (A : Type) := Put (l : list A) | Push (x : A) | Extend (l : list A) | Drop (x : A).
Arguments Put {A} l. Arguments Push {A} x. Arguments Extend {A} l. Arguments Drop {A} x.
Section Lists.
  Context {A : Type} (equal : A -> A -> Prop).
  Definition given (e : change A) : list A := match e with Put l | Extend l => l | Push x => [x] | Drop _ => [] end.
  (** A later call replaces the whole list, or drops something equal. *)
  Definition lost (x : A) (later : list (change A)) : Prop :=
    exists e, In e later /\ match e with Put _ => True | Drop y => equal x y | _ => False end.
  (** [without P l k]: [k] is [l] without the elements that satisfy [P]. *)
  Inductive without (P : A -> Prop) : list A -> list A -> Prop :=
  | wo_nil : without P [] []
  | wo_in x l k : ~ P x -> without P l k -> without P (x :: l) (x :: k)
  | wo_out x l k : P x -> without P l k -> without P (x :: l) k.
  (** What is left after the calls: all that each one gives and no later one takes away, in order. *)
  Inductive left_by : list (change A) -> list A -> Prop :=
  | lb_none : left_by [] []
  | lb_call e later kept rest :
      without (fun x => lost x later) (given e) kept -> left_by later rest -> left_by (e :: later) (kept ++ rest).
End Lists.

(** ** The calls on each object *)
Inductive key_change := KName (n : str) | KPath (e : change path_segment).
Definition key_do (k : key) (c : key_change) : key :=
  match c with
  | KName n => key_set_identifier k n
  | KPath (Put l) => key_set_path k l
  | KPath (Push x) => key_add_segment k x
  | KPath (Extend l) => key_append_path k l
  | KPath (Drop x) => key_remove_segment k x
  end.
Definition key_names (cs : list key_change) : list str := flat_map (fun c => match c with KName n => [n] | _ => [] end) cs.
Definition key_paths (cs : list key_change) : list (change path_segment) := flat_map (fun c => match c with KPath e => [e] | _ => [] end) cs.

Inductive comparison_change := PComparator (c : comparator) | PInsensitive (b : bool) | PValues (e : change sel_value).
Definition comparison_do (k : comparison_) (c : comparison_change) : comparison_ :=
  match c with
  | PComparator x => cp_set_comparator k x
  | PInsensitive b => cp_set_insensitive k b
  | PValues (Put l) => cp_set_values k l
  | PValues (Push x) => cp_add_value k x
  | PValues (Extend l) => cp_append_values k l
  | PValues (Drop x) => cp_remove_value k x
  end.
Definition p_comparators (cs : list comparison_change) := flat_map (fun c => match c with PComparator x => [x] | _ => [] end) cs.
Definition p_insensitives (cs : list comparison_change) := flat_map (fun c => match c with PInsensitive x => [x] | _ => [] end) cs.
Definition p_values (cs : list comparison_change) := flat_map (fun c => match c with PValues x => [x] | _ => [] end) cs.

Inductive attribute_change := TKey (k : key) | TComparison (c : comparison_) | TNoComparison.
Definition attribute_change_do (a : attribute) (c : attribute_change) : attribute :=
  match c with
  | TKey k => at_set_key a k
  | TComparison x => at_set_comparison a x
  | TNoComparison => at_unset_comparison a
  end.
Definition t_keys (cs : list attribute_change) := flat_map (fun c => match c with TKey x => [x] | _ => [] end) cs.
Definition t_comparisons (cs : list attribute_change) : list (option comparison_) :=
  flat_map (fun c => match c with TComparison x => [Some x] | TNoComparison => [None] | _ => [] end) cs.

Definition selector_do (s : selector) (c : change expr) : selector :=
  match c with
  | Put l => sl_set_expressions s l
  | Push x => sl_add_expression s x
  | Extend l => sl_append_expressions s l
  | Drop x => sl_remove_expression s x
  end.

Inductive scoped_change := DKey (k : key) | DNoKey | DAssertions (e : change assertion).
Definition scoped_do (s : scoped) (c : scoped_change) : scoped :=
  match c with
  | DKey k => sc_set_key s k
  | DNoKey => sc_unset_key s
  | DAssertions (Put l) => sc_set_assertions s l
  | DAssertions (Push x) => sc_add_assertion s x
  | DAssertions (Extend l) => sc_append_assertions s l
  | DAssertions (Drop x) => sc_remove_assertion s x
  end.
Definition d_keys (cs : list scoped_change) : list (option key) :=
  flat_map (fun c => match c with DKey x => [Some x] | DNoKey => [None] | _ => [] end) cs.
Definition d_assertions (cs : list scoped_change) := flat_map (fun c => match c with DAssertions x => [x] | _ => [] end) cs.

Inductive assertion_change := NLeft (v : scoped_value) | NComparator (c : comparator) | NInsensitive (b : bool) | NValues (e : change scoped_value).
Definition assertion_do (k : assertion) (c : assertion_change) : assertion :=
  match c with
  | NLeft v => as_set_lhs k v
  | NComparator x => as_set_comparator k x
  | NInsensitive b => as_set_insensitive k b
  | NValues (Put l) => as_set_values k l
  | NValues (Push x) => as_add_value k x
  | NValues (Extend l) => as_append_values k l
  | NValues (Drop x) => as_remove_value k x
  end.
Definition n_lefts (cs : list assertion_change) := flat_map (fun c => match c with NLeft x => [x] | _ => [] end) cs.
Definition n_comparators (cs : list assertion_change) := flat_map (fun c => match c with NComparator x => [x] | _ => [] end) cs.
Definition n_insensitives (cs : list assertion_change) := flat_map (fun c => match c with NInsensitive x => [x] | _ => [] end) cs.
Definition n_values (cs : list assertion_change) := flat_map (fun c => match c with NValues x => [x] | _ => [] end) cs.

Inductive function_change := FName (n : str) | FArguments (e : change selector).
Definition function_do (f : function_) (c : function_change) : function_ :=
  match c with
  | FName n => fn_set_name f n
  | FArguments (Put l) => fn_set_arguments f l
  | FArguments (Push x) => fn_add_argument f x
  | FArguments (Extend l) => fn_append_arguments f l
  | FArguments (Drop x) => fn_remove_argument f x
  end.
Definition f_names (cs : list function_change) := flat_map (fun c => match c with FName x => [x] | _ => [] end) cs.
Definition f_arguments (cs : list function_change) := flat_map (fun c => match c with FArguments x => [x] | _ => [] end) cs.

Inductive definition_change := VName (n : str) | VSelector (s : selector).
Definition definition_do (d : definition_) (c : definition_change) : definition_ :=
  match c with VName n => vd_set_name d n | VSelector s => vd_set_selector d s end.
Definition v_names (cs : list definition_change) := flat_map (fun c => match c with VName x => [x] | _ => [] end) cs.
Definition v_selectors (cs : list definition_change) := flat_map (fun c => match c with VSelector x => [x] | _ => [] end) cs.

(** The last thing said about a field that holds [o] to begin with. *)
Definition last_said {A} (o : option A) (l : list (option A)) : option A := match latest l with Some x => x | None => o end.
