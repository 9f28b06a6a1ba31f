(** C46: the builders of selectors. *)
From Verif.Model Require Import SelectorBuild SelectorParse.
From Verif.Spec Require Import SelectorBuildSpec SelectorSpec Witness.
From Verif.Proofs Require Import ShapeApiFacts SelectorBuildFacts.
From Verif.Props Require Import P11_Selector.

Theorem C46_selector_calls f64_str :
  forall (c : selector_call) (cs : list selector_call),
    Forall builder_value (flat_map arguments (c :: cs)) ->
    (selector_made c cs = Panic <-> Exists no_arguments (c :: cs))
    /\ (forall e, selector_made c cs <> Err e)
    /\ forall sel, selector_made c cs = Ok sel -> Forall2 (stands_for f64_str) (c :: cs) sel.
Proof. exact (selector_made_spec f64_str). Qed.
Print Assumptions C46_selector_calls.

(** So the selector reads as the calls do, one after the other ... *)
Theorem C46_selector_text f64_str :
  forall c cs sel, Forall builder_value (flat_map arguments (c :: cs)) -> selector_made c cs = Ok sel ->
    selector_display f64_str sel = join (lit " ") (map (call_text f64_str) (c :: cs)).
Proof.
  intros c cs sel B M. destruct (selector_made_spec f64_str c cs B) as (_ & _ & G). specialize (G sel M). clear B M.
  unfold selector_display. f_equal. induction G as [|c' e l l' [D _] _ IH]; [reflexivity|]. cbn [map]. rewrite D, IH. reflexivity.
Qed.
Print Assumptions C46_selector_text.
(** ... and, when it can be written, is what that text is read as. *)
Theorem C46_selector_read f64_str f64_parse :
  forall c cs sel, Forall builder_value (flat_map arguments (c :: cs)) -> selector_made c cs = Ok sel ->
    printable f64_str f64_parse sel ->
    parse_selector f64_parse (join (lit " ") (map (call_text f64_str) (c :: cs))) = Ok sel.
Proof.
  intros c cs sel B M P. rewrite <- (C46_selector_text f64_str c cs sel B M). apply C33_round_trip, P.
Qed.
Print Assumptions C46_selector_read.

(** A builder is never empty, so that converting it never panics. *)
Theorem C46_builders_are_not_empty : forall b, builder_value b -> b <> [] /\ selector_of b = Ok b.
Proof. intros b B. pose proof (builder_value_nonempty b B). destruct b; [contradiction|]. split; [discriminate|reflexivity]. Qed.
Print Assumptions C46_builders_are_not_empty.

(** Attribute selectors. *)
Theorem C46_attribute_calls :
  forall (s : attribute_start) (cs : list attribute_call),
    exists a, fold_left attribute_do cs (attribute_started s) = a
      /\ key_id (at_key a) = attribute_name s
      /\ key_path (at_key a) = path_said (attribute_path_calls cs)
      /\ option_map reading (at_comparison a) = latest (comparisons_said cs)
      /\ ab_selector a = Ok [XAttribute a].
Proof.
  intros s cs. eexists. split; [reflexivity|]. rewrite attribute_run. cbn [at_key key_id key_path at_comparison].
  split; [destruct s; reflexivity|]. split; [rewrite <- path_said_fold; destruct s; reflexivity|].
  split; [|reflexivity]. rewrite latest_comparison. destruct (latest _); destruct s; reflexivity.
Qed.
Print Assumptions C46_attribute_calls.

(** Scoped attribute selectors: numbers are not written as numbers. *)
Definition C46_scoped_calls (number_value : (Z -> str) -> number -> sel_value) : Prop :=
  forall f64_str (s : scoped_start) (cs : list scoped_call),
    let path := scoped_path_calls cs in
    let asserted := assertions_said (number_value f64_str) cs in
    (scoped_made f64_str s cs = Panic <-> asserted = [] \/ (s = SDefault /\ path <> []))
    /\ (forall e, scoped_made f64_str s cs <> Err e)
    /\ forall sel, scoped_made f64_str s cs = Ok sel ->
       exists x, sel = [XScoped x]
         /\ map assertion_reading (sc_assertions x) = asserted
         /\ sc_key x = match s with SDefault => None | SNamed n => Some (Key (attribute_name n) (path_said path)) end.
Theorem C46_scoped_numbers_refuted : ~ C46_scoped_calls (fun _ => SvNumber).
Proof.
  intros C. destruct (C (fun _ => []) SDefault [SNumber RLess (ScValue (SvText [])) (NInteger 1)]) as (_ & _ & G).
  destruct (G _ eq_refl) as (x & E & M & _). injection E as <-. discriminate M.
Qed.
Print Assumptions C46_scoped_numbers_refuted.
Theorem C46_scoped_calls_with_texts : C46_scoped_calls (fun f64_str n => SvText (number_display f64_str n)).
Proof. intros f64_str s cs. apply scoped_made_spec. Qed.
Print Assumptions C46_scoped_calls_with_texts.

(** The constructors of comparisons: the sign and the value, except that a prefix is quoted. *)
Definition C46_comparisons (prefix : (Z -> str) -> sel_value -> sel_value) : Prop :=
  forall f64_str v n b l,
    reading (cmp_string_equal v) = (lit "=", [v], false)
    /\ reading (cmp_string_not_equal v) = (lit "!=", [v], false)
    /\ reading (cmp_string_starts_with f64_str v) = (lit "^=", [prefix f64_str v], false)
    /\ reading (cmp_string_ends_with v) = (lit "$=", [v], false)
    /\ reading (cmp_string_contains v) = (lit "*=", [v], false)
    /\ reading (cmp_string_exists b) = (lit "?=", [SvText (truth b)], false)
    /\ reading (cmp_number_greater n) = (lit ">", [SvNumber n], false)
    /\ reading (cmp_number_greater_or_equal n) = (lit ">=", [SvNumber n], false)
    /\ reading (cmp_number_less n) = (lit "<", [SvNumber n], false)
    /\ reading (cmp_number_less_or_equal n) = (lit "<=", [SvNumber n], false)
    /\ reading (cmp_projection_equal v) = (lit "{=}", [v], false)
    /\ reading (cmp_projection_not_equal v) = (lit "{!=}", [v], false)
    /\ reading (cmp_projection_subset l) = (lit "{<}", l, false)
    /\ reading (cmp_projection_proper_subset l) = (lit "{<<}", l, false).
Theorem C46_prefix_is_kept_refuted : ~ C46_comparisons (fun _ v => v).
Proof.
  intros C. destruct (C (fun _ => []) (SvText (lit "a")) (NInteger 1) true []) as (_ & _ & E & _). discriminate E.
Qed.
Print Assumptions C46_prefix_is_kept_refuted.
Theorem C46_comparisons_with_quoted_prefix :
  C46_comparisons (fun f64_str v => SvText (match v with
                                            | SvText s => lit """" ++ s ++ lit """"
                                            | SvNumber n => number_display f64_str n
                                            | SvRoot n => n
                                            | SvAbsolute i => sid_display i end)).
Proof. intros f64_str v n b l. destruct v; repeat split. Qed.
Print Assumptions C46_comparisons_with_quoted_prefix.

Example C46_ex f64_str :
  let calls := [CNeighbor (Nb_forward_directed [lit "input"; lit "output"]); CFunction Fn_not [[XShapeType TyBigDecimal; XNeighbor NbForward]];
                CAttribute (fold_left attribute_do [APath (PFor (Seg_id (lit "deprecated"))); AText RStartsWith [SvText (lit "a")] true] (attribute_started ANamedTrait))] in
  Forall builder_value (flat_map arguments (CShape Named_structure :: calls))
  /\ exists sel, selector_made (CShape Named_structure) calls = Ok sel
     /\ selector_display f64_str sel = lit "structure -[input, output]-> :not(bigDecimal >) [trait|deprecated ^= ""a"" i]"
     /\ selector_made (CShape Named_structure) [CFunction Fn_is []] = Panic
     /\ scoped_made f64_str SDefault [SPath (PPath [])] = Panic.
Proof.
  cbn zeta. split.
  - cbn [flat_map arguments app]. constructor; [|constructor]. eapply (bv_add [XShapeType TyBigDecimal] (CNeighbor Nb_forward_undirected)); [|constructor|reflexivity].
    eapply (bv_start (CShape Named_big_decimal)); [constructor|reflexivity].
  - eexists. split; [reflexivity|]. split; [reflexivity|]. split; reflexivity.
Qed.
