(** C54: the parts of a selector after any history of calls. *)
From Verif.Model Require Import ShapeApi SelectorApi.
From Verif.Spec Require Import SelectorApiSpec Witness.
From Verif.Proofs Require Import SelectorApiFacts.

(** *** Equality *)
Theorem C54_equality :
  (forall a b, selector_eqb a b = true <-> equal_selector a b)
  /\ (forall a b, expr_eqb a b = true <-> equal_expr a b)
  /\ (forall a b, attribute_eqb a b = true <-> equal_attribute a b)
  /\ (forall a b, scoped_eqb a b = true <-> equal_scoped a b)
  /\ (forall a b, neighbor_eqb a b = true <-> equal_neighbor a b)
  /\ (forall a b, comparison_eqb a b = true <-> equal_comparison a b)
  /\ (forall a b, assertion_eqb a b = true <-> equal_assertion a b)
  /\ (forall a b, scoped_value_eqb a b = true <-> equal_scoped_value a b)
  /\ (forall a b, key_eqb a b = true <-> equal_key a b)
  /\ (forall a b, segment_eqb a b = true <-> equal_segment a b)
  /\ (forall a b, sel_value_eqb a b = true <-> equal_sel a b)
  /\ (forall a b, comparator_eqb a b = true <-> a = b)
  /\ (forall a b, shape_type_eqb a b = true <-> a = b).
Proof.
  repeat split; first
    [apply selector_eqb_spec|apply expr_eqb_spec|apply attribute_eqb_spec|apply scoped_eqb_spec|apply neighbor_eqb_spec
    |apply comparison_eqb_spec|apply assertion_eqb_spec|apply scoped_value_eqb_spec|apply key_eqb_spec|apply segment_eqb_spec
    |apply sel_value_eqb_spec|apply comparator_eqb_spec|apply shape_type_eqb_spec].
Qed.
Print Assumptions C54_equality.
(** It is symmetric and transitive; an expression equals itself unless it mentions NaN. *)
Theorem C54_equality_laws :
  (forall a b, expr_eqb a b = expr_eqb b a)
  /\ (forall a b c, expr_eqb a b = true -> expr_eqb b c = true -> expr_eqb a c = true)
  /\ forall a, expr_eqb a a = false <-> mentions_nan a.
Proof.
  split; [|split].
  - intros a b. apply eq_iff_eq_true. rewrite !expr_eqb_spec. split; apply equal_expr_sym.
  - intros a b c. rewrite !expr_eqb_spec. apply equal_expr_trans.
  - intros a. rewrite mentions_nan_spec, <- equal_expr_refl, <- expr_eqb_spec. destruct (expr_eqb a a); intuition congruence.
Qed.
Print Assumptions C54_equality_laws.

(** *** Keys *)
Theorem C54_key :
  forall n p cs, let k := fold_left key_do cs (key_with_path n p) in
    latest (n :: key_names cs) = Some (key_id k)
    /\ left_by equal_segment (Put p :: key_paths cs) (key_path k)
    /\ (key_has_path k = true <-> key_path k <> [])
    /\ key_new n = key_with_path n [] /\ key_from n = key_with_path n [].
Proof.
  intros n p cs k. replace k with (Key (fold_left (fun _ y => y) (key_names cs) n) (fold_left (change_apply segment_eqb) (key_paths cs) p)).
  - split; [apply fold_last|]. split; [apply left_put, segment_eqb_spec|]. split; [apply array_has_spec|]. split; reflexivity.
  - unfold k, key_with_path. clear k. revert n p. induction cs as [|c cs IH]; intros n p; [reflexivity|].
    destruct c as [m|[l|x|l|x]]; exact (IH _ _).
Qed.
Print Assumptions C54_key.

(** *** Comparisons *)
Theorem C54_comparison :
  forall k cs, let k' := fold_left comparison_do cs k in
    latest (cp_comparator k :: p_comparators cs) = Some (cp_comparator k')
    /\ latest (cp_insensitive k :: p_insensitives cs) = Some (cp_insensitive k')
    /\ left_by equal_sel (Put (cp_values k) :: p_values cs) (cp_values k')
    /\ (cp_has_values k' = true <-> cp_values k' <> []).
Proof.
  intros k cs k'. replace k' with (Comparison (fold_left (fun _ y => y) (p_comparators cs) (cp_comparator k))
                                     (fold_left (change_apply sel_value_eqb) (p_values cs) (cp_values k))
                                     (fold_left (fun _ y => y) (p_insensitives cs) (cp_insensitive k))).
  - split; [apply fold_last|]. split; [apply fold_last|]. split; [apply left_put, sel_value_eqb_spec|apply array_has_spec].
  - unfold k'. clear k'. revert k. induction cs as [|c cs IH]; intros k; [destruct k; reflexivity|].
    specialize (IH (comparison_do k c)). destruct c as [m|b|[l|x|l|x]]; exact IH.
Qed.
Print Assumptions C54_comparison.

(** *** Attribute selectors *)
Theorem C54_attribute :
  forall k o cs a, (o = None /\ (a = attribute_new k \/ a = attribute_from k) \/ exists c, o = Some c /\ a = attribute_with_comparison k c) ->
    let a' := fold_left attribute_change_do cs a in
    latest (k :: t_keys cs) = Some (at_key a')
    /\ at_comparison a' = last_said o (t_comparisons cs)
    /\ (at_has_comparison a' = true <-> at_comparison a' <> None).
Proof.
  intros k o cs a H. assert (E : a = Attribute k o) by (destruct H as [[-> [->| ->]]|(c & -> & ->)]; reflexivity). subst a. clear H. intros a'.
  replace a' with (Attribute (fold_left (fun _ y => y) (t_keys cs) k) (fold_left (fun _ y => y) (t_comparisons cs) o)).
  - split; [apply fold_last|]. split; [symmetry; apply last_said_fold|apply optional_has_spec].
  - unfold a'. clear a'. revert k o. induction cs as [|c cs IH]; intros k o; [reflexivity|].
    destruct c as [m|b|]; exact (IH _ _).
Qed.
Print Assumptions C54_attribute.

(** *** Selectors *)
Theorem C54_selector :
  forall l cs, let s := fold_left selector_do cs (selector_from_vec l) in
    left_by equal_expr (Put l :: cs) s
    /\ (sl_has_expressions s = true <-> s <> [])
    /\ selector_default = selector_from_vec [] /\ forall e, selector_from e = selector_from_vec [e].
Proof.
  intros l cs s. replace s with (fold_left (change_apply expr_eqb) cs l).
  - split; [apply left_put; intros; apply expr_eqb_spec|]. split; [apply array_has_spec|]. split; reflexivity.
  - unfold s, selector_from_vec. clear s. revert l. induction cs as [|[r|x|r|x] cs IH]; intros l; [reflexivity|exact (IH _)..].
Qed.
Print Assumptions C54_selector.
(** What is left is determined by the history, for any of these lists ... *)
Theorem C54_one_outcome : forall A (R : A -> A -> Prop) es r r', left_by R es r -> left_by R es r' -> r = r'.
Proof. intros A R. apply left_fun. Qed.
Print Assumptions C54_one_outcome.
(** ... and an expression that mentions NaN is never removed. *)
Theorem C54_nan_is_never_removed : forall s x, mentions_nan x -> sl_remove_expression s x = s.
Proof.
  intros s x N. unfold sl_remove_expression, array_remove. induction s as [|y s IH]; [reflexivity|]. cbn [filter]. rewrite IH.
  destruct (expr_eqb y x) eqn:E; [exfalso|reflexivity]. apply mentions_nan_spec in N. apply N. apply equal_expr_refl.
  apply expr_eqb_spec in E. eapply equal_expr_trans; [apply equal_expr_sym|]; exact E.
Qed.
Print Assumptions C54_nan_is_never_removed.

(** *** Scoped attribute selectors *)
Theorem C54_scoped :
  forall o l cs s, (o = None /\ scoped_new l = Ok s \/ exists k, o = Some k /\ scoped_with_key k l = Ok s) ->
    let s' := fold_left scoped_do cs s in
    sc_key s' = last_said o (d_keys cs)
    /\ (sc_has_key s' = true <-> sc_key s' <> None)
    /\ left_by equal_assertion (Put l :: d_assertions cs) (sc_assertions s')
    /\ (sc_has_assertions s' = true <-> sc_assertions s' <> []).
Proof.
  intros o l cs s H. assert (E : s = Scoped o l).
  { destruct H as [[-> H]|(k & -> & H)]; destruct l; cbn in H; try discriminate H; injection H as <-; reflexivity. }
  subst s. clear H. intros s'. replace s' with (Scoped (fold_left (fun _ y => y) (d_keys cs) o) (fold_left (change_apply assertion_eqb) (d_assertions cs) l)).
  - split; [symmetry; apply last_said_fold|]. split; [apply optional_has_spec|]. split; [apply left_put, assertion_eqb_spec|apply array_has_spec].
  - unfold s'. clear s'. revert o l. induction cs as [|c cs IH]; intros o l; [reflexivity|].
    destruct c as [m| |[r|x|r|x]]; exact (IH _ _).
Qed.
Print Assumptions C54_scoped.
(** They panic exactly without assertions. *)
Theorem C54_scoped_panics :
  forall k l, (scoped_new l = Panic <-> l = []) /\ (scoped_with_key k l = Panic <-> l = [])
    /\ (forall e, scoped_new l <> Err e) /\ (forall e, scoped_with_key k l <> Err e).
Proof. intros k [|a l]; cbn; repeat split; try discriminate. Qed.
Print Assumptions C54_scoped_panics.

(** *** Assertions *)
Theorem C54_assertion :
  forall a cs, let a' := fold_left assertion_do cs a in
    latest (as_lhs a :: n_lefts cs) = Some (as_lhs a')
    /\ latest (as_comparator a :: n_comparators cs) = Some (as_comparator a')
    /\ latest (as_insensitive a :: n_insensitives cs) = Some (as_insensitive a')
    /\ left_by equal_scoped_value (Put (as_rhs a) :: n_values cs) (as_rhs a')
    /\ (as_has_values a' = true <-> as_rhs a' <> []).
Proof.
  intros a cs a'. replace a' with (Assertion (fold_left (fun _ y => y) (n_lefts cs) (as_lhs a)) (fold_left (fun _ y => y) (n_comparators cs) (as_comparator a))
                                     (fold_left (change_apply scoped_value_eqb) (n_values cs) (as_rhs a))
                                     (fold_left (fun _ y => y) (n_insensitives cs) (as_insensitive a))).
  - split; [apply fold_last|]. split; [apply fold_last|]. split; [apply fold_last|]. split; [apply left_put, scoped_value_eqb_spec|apply array_has_spec].
  - unfold a'. clear a'. revert a. induction cs as [|c cs IH]; intros a; [destruct a; reflexivity|].
    specialize (IH (assertion_do a c)). destruct c as [m|b|i|[l|x|l|x]]; exact IH.
Qed.
Print Assumptions C54_assertion.
(** What the constructors make, as left value, sign, right values and case-insensitivity, where
    [prefix] is what becomes of a prefix and [number] of a number. *)
Definition shows (a : assertion) (l : scoped_value) (sign : string) (r : list scoped_value) (i : bool) : Prop :=
  as_lhs a = l /\ comparator_display (as_comparator a) = lit sign /\ as_rhs a = r /\ as_insensitive a = i.
Definition C54_assertions (prefix : (Z -> str) -> scoped_value -> scoped_value) (num : (Z -> str) -> number -> sel_value) : Prop :=
  forall f64_str c l r n b rs,
    assertion_new l c rs = Assertion l c rs false
    /\ assertion_new_ci l c rs = Assertion l c rs true
    /\ shows (asn_string_equal l r) l "="%string [r] false
    /\ shows (asn_string_not_equal l r) l "!="%string [r] false
    /\ shows (asn_string_starts_with f64_str l r) l "^="%string [prefix f64_str r] false
    /\ shows (asn_string_ends_with l r) l "$="%string [r] false
    /\ shows (asn_string_contains l r) l "*="%string [r] false
    /\ shows (asn_string_exists l b) l "?="%string [ScValue (SvText (if b then lit "true" else lit "false"))] false
    /\ shows (asn_number_greater f64_str l n) l ">"%string [ScValue (num f64_str n)] false
    /\ shows (asn_number_greater_or_equal f64_str l n) l ">="%string [ScValue (num f64_str n)] false
    /\ shows (asn_number_less f64_str l n) l "<"%string [ScValue (num f64_str n)] false
    /\ shows (asn_number_less_or_equal f64_str l n) l "<="%string [ScValue (num f64_str n)] false
    /\ shows (asn_projection_equal l r) l "{=}"%string [r] false
    /\ shows (asn_projection_not_equal l r) l "{!=}"%string [r] false
    /\ shows (asn_projection_subset l rs) l "{<}"%string rs false
    /\ shows (asn_projection_proper_subset l rs) l "{<<}"%string rs false.
(** One would expect both unchanged: they are not. *)
Theorem C54_values_are_kept_refuted : ~ C54_assertions (fun _ r => r) (fun _ n => SvNumber n).
Proof.
  intros C. pose proof (C (fun _ => []) CmEqual (ScValue (SvText [])) (ScValue (SvText [])) (NInteger 1) true []) as H.
  destruct H as (_ & _ & _ & _ & (_ & _ & E & _) & _). discriminate E.
Qed.
Print Assumptions C54_values_are_kept_refuted.
Theorem C54_assertions_with_texts :
  C54_assertions (fun f64_str r => ScValue (SvText (scoped_value_display f64_str r))) (fun f64_str n => SvText (number_display f64_str n)).
Proof. intros f64_str c l r n b rs. unfold shows. repeat split. Qed.
Print Assumptions C54_assertions_with_texts.

(** *** Functions and variables *)
Theorem C54_function :
  forall n l cs, (fn_new n l = Panic <-> l = []) /\ (forall e, fn_new n l <> Err e)
    /\ forall f, fn_new n l = Ok f -> let f' := fold_left function_do cs f in
       latest (n :: f_names cs) = Some (fn_name f')
       /\ left_by equal_selector (Put l :: f_arguments cs) (fn_arguments f')
       /\ (fn_has_arguments f' = true <-> fn_arguments f' <> []).
Proof.
  intros n l cs. split; [destruct l; cbn; split; congruence|]. split; [destruct l; discriminate|]. intros f E.
  assert (f = Function_ n l) as -> by (destruct l; cbn in E; [discriminate|congruence]). clear E. intros f'.
  replace f' with (Function_ (fold_left (fun _ y => y) (f_names cs) n) (fold_left (change_apply selector_eqb) (f_arguments cs) l)).
  - split; [apply fold_last|]. split; [apply left_put, selector_eqb_spec|apply array_has_spec].
  - unfold f'. clear f'. revert n l. induction cs as [|c cs IH]; intros n l; [reflexivity|].
    destruct c as [m|[r|x|r|x]]; exact (IH _ _).
Qed.
Print Assumptions C54_function.
Theorem C54_variables :
  forall n s cs ns, let d := fold_left definition_do cs (vd_new n s) in
    latest (n :: v_names cs) = Some (vd_name d)
    /\ latest (s :: v_selectors cs) = Some (vd_selector d)
    /\ vr_name (vd_new_reference d) = vd_name d
    /\ latest (n :: ns) = Some (vr_name (fold_left vr_set_name ns (vr_new n)))
    /\ vr_from n = vr_new n.
Proof.
  intros n s cs ns d. replace d with (Definition_ (fold_left (fun _ y => y) (v_names cs) n) (fold_left (fun _ y => y) (v_selectors cs) s)).
  - split; [apply fold_last|]. split; [apply fold_last|]. split; [reflexivity|]. split; [|reflexivity].
    rewrite fold_last. f_equal. clear. revert n. induction ns as [|m ns IH]; intros n; [reflexivity|exact (IH _)].
  - unfold d. clear d. revert n s. induction cs as [|[m|t] cs IH]; intros n s; [reflexivity|exact (IH _ _)..].
Qed.
Print Assumptions C54_variables.

(** *** Conversions and accessors: [as_x] answers exactly what the value was made from, and [is_x]
    whether it answers anything *)
Definition answers {A B} (from : A -> B) (is_ : B -> bool) (as_ : B -> option A) : Prop :=
  (forall b a, as_ b = Some a <-> b = from a) /\ forall b, is_ b = true <-> exists a, b = from a.
Lemma answers_intro {A B} (from : A -> B) is_ as_ :
  (forall a, as_ (from a) = Some a) -> (forall b a, as_ b = Some a -> b = from a) -> (forall b, is_ b = optional_has (as_ b)) -> answers from is_ as_.
Proof.
  intros F G H. split.
  - intros b a. split; [apply G|intros ->; apply F].
  - intros b. rewrite H, optional_has_spec. destruct (as_ b) as [a|] eqn:E.
    + split; [intros _; exists a; apply G, E|discriminate].
    + split; [congruence|]. intros [a ->]. rewrite F in E. discriminate.
Qed.
Theorem C54_conversions :
  answers sv_from_string sv_is_text sv_as_text
  /\ answers sv_from_number sv_is_number sv_as_number
  /\ (forall n, sv_from_i64 n = sv_from_number (NInteger n)) /\ (forall x, sv_from_f64 x = sv_from_number (NFloat x))
  /\ answers sv_from_identifier sv_is_root sv_as_root
  /\ answers sv_from_shape_id sv_is_absolute sv_as_absolute
  /\ answers ps_from_value ps_is_value ps_as_value
  /\ answers ps_from_identifier ps_is_function ps_as_function
  /\ answers sc_from_value sc_is_value sc_as_value
  /\ answers sc_from_path sc_is_context sc_as_context
  /\ (forall s, sc_from_string s = sc_from_value (sv_from_string s))
  /\ (forall n, sc_from_number n = sc_from_value (sv_from_number n))
  /\ (forall n, sc_from_i64 n = sc_from_value (sv_from_i64 n))
  /\ (forall n, sc_from_f64 n = sc_from_value (sv_from_f64 n))
  /\ (forall n, sc_from_identifier n = sc_from_value (sv_from_identifier n))
  /\ (forall i, sc_from_shape_id i = sc_from_value (sv_from_shape_id i))
  /\ answers NbForwardDirected nb_is_forward_directed nb_as_forward_directed
  /\ answers NbReverseDirected nb_is_reverse_directed nb_as_reverse_directed
  /\ (forall n, nb_is_forward_undirected n = true <-> n = NbForward)
  /\ (forall n, nb_is_reverse_undirected n = true <-> n = NbReverse)
  /\ (forall n, nb_is_recursive n = true <-> n = NbRecursive)
  /\ answers x_from_shape_type x_is_shape_type x_as_shape_type
  /\ answers x_from_attribute x_is_attribute x_as_attribute
  /\ answers x_from_scoped x_is_scoped x_as_scoped
  /\ answers x_from_neighbor x_is_neighbor x_as_neighbor
  /\ answers x_from_function x_is_function x_as_function
  /\ answers x_from_definition x_is_definition x_as_definition
  /\ answers x_from_reference x_is_reference x_as_reference.
Proof.
  repeat match goal with |- _ /\ _ => split end; try reflexivity;
    match goal with
    | |- answers _ _ _ => apply answers_intro; [intros a; first [reflexivity|destruct a; reflexivity]|intros b a E; destruct b; try discriminate E; injection E as <-; reflexivity|intros []; reflexivity]
    | |- _ => intros []; split; cbn; congruence
    end.
Qed.
Print Assumptions C54_conversions.

Example C54_ex :
  let nan := XAttribute (Attribute (Key (lit "id") []) (Some (Comparison CmEqual [SvNumber (NFloat 9221120237041090560)] false))) in
  let calls := [Push (XReference (lit "A")); Push nan; Drop (XReference (lit "a")); Drop nan; Extend [XShapeType TyList]] in
  fold_left selector_do calls [XReference (lit "b")] = [XReference (lit "b"); nan; XShapeType TyList]
  /\ mentions_nan nan
  /\ equal_expr (XReference (lit "A")) (XReference (lit "a"))
  (* the hypotheses of C54_attribute, C54_scoped and C54_function *)
  /\ (exists c, Some (comparison_new CmExists []) = Some c /\ Attribute (key_new (lit "id")) (Some c) = attribute_with_comparison (key_new (lit "id")) c)
  /\ (exists s, scoped_with_key (key_new (lit "id")) [asn_string_exists (ScContext []) true] = Ok s)
  /\ exists f, fn_new (lit "not") [[nan]] = Ok f.
Proof.
  split; [vm_compute; reflexivity|]. split; [exists 9221120237041090560%Z; split; [left; reflexivity|vm_compute; reflexivity]|].
  split; [apply expr_eqb_spec; vm_compute; reflexivity|]. repeat split; eexists; [split|..]; reflexivity.
Qed.
