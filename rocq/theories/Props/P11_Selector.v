(** C33: reading selectors from text. [f64_str] and [f64_parse] stand for [Display] and [FromStr] of [f64]. *)
From Verif.Model Require Import SelectorParse.
From Verif.Spec Require Import IdentitySpec SelectorSpec.
From Verif.Proofs Require Import SelectorFacts SelectorSound SelectorWhole.

(** A selector that can be written in the grammar is read back from its text. *)
Theorem C33_round_trip f64_str f64_parse sel :
  printable f64_str f64_parse sel ->
  parse_selector f64_parse (selector_display f64_str sel) = Ok sel.
Proof. apply round_trip. Qed.
Print Assumptions C33_round_trip.

(** Whatever text a selector was read from, its names are identifiers, its lists are not empty, its
    comparators are not >= or <=, and its values are as in [value_parsed]. *)
Theorem C33_parsed_shape f64_parse text sel :
  parse_selector f64_parse text = Ok sel -> selector_shaped (value_parsed f64_parse) sel.
Proof. intros E. assert (G := parse_good f64_parse text). rewrite E in G. exact G. Qed.
Print Assumptions C33_parsed_shape.

(** Reading never panics (and never runs out of steps) unless the text has a number in it that is
    written without a decimal point and is no [i64]. *)
Theorem C33_panics_on_numbers_only f64_parse text :
  parse_selector f64_parse text = Panic -> exists before w after, text = before ++ w ++ after /\ not_i64 w.
Proof. intros E. assert (G := parse_good f64_parse text). rewrite E in G. exact G. Qed.
Print Assumptions C33_panics_on_numbers_only.

(** Provided that writing does not change its values, a selector is read back from its text if and only
    if it has the shape that some text can have. *)
Theorem C33_read_back_iff f64_str f64_parse sel :
  (forall v, In v (selector_values sel) -> value_faithful f64_str f64_parse v) ->
  (parse_selector f64_parse (selector_display f64_str sel) = Ok sel
   <-> selector_shaped (value_parsed f64_parse) sel).
Proof.
  intros H. split; [apply C33_parsed_shape|]. intros S. apply round_trip, faithful_printable; assumption.
Qed.
Print Assumptions C33_read_back_iff.

(** What was read once is read again from the text it displays. *)
Theorem C33_reread f64_str f64_parse text sel :
  parse_selector f64_parse text = Ok sel ->
  (forall v, In v (selector_values sel) -> value_faithful f64_str f64_parse v) ->
  parse_selector f64_parse (selector_display f64_str sel) = Ok sel.
Proof. intros E H. apply round_trip, faithful_printable; [exact H|]. exact (C33_parsed_shape _ _ _ E). Qed.
Print Assumptions C33_reread.

(** ** What is not so *)
Definition attr (n : string) (c : comparator) (v : sel_value) : selector :=
  [XAttribute (Attribute (Key (lit n) []) (Some (Comparison c [v] false)))].

(** The grammar lists >= and <=, but > and < come first. *)
Theorem C33_ge_le_refuted f64_str f64_parse : forall c, c = CmGreaterEqual \/ c = CmLessEqual ->
  exists e, parse_selector f64_parse (selector_display f64_str (attr "id" c (SvText "a"))) = Err e.
Proof. intros c [-> | ->]; eexists; vm_compute; reflexivity. Qed.
Print Assumptions C33_ge_le_refuted.
(** Texts with quotes are written as they are: they may be unreadable ... *)
Theorem C33_quote_unreadable_refuted f64_str f64_parse :
  exists sel e, parse_selector f64_parse (lit "[id = 'a""b']") = Ok sel
    /\ parse_selector f64_parse (selector_display f64_str sel) = Err e.
Proof. do 2 eexists. split; [vm_compute; reflexivity|]. vm_compute. reflexivity. Qed.
Print Assumptions C33_quote_unreadable_refuted.
(** ... or be read as another selector. *)
Theorem C33_quote_injection_refuted f64_str f64_parse :
  exists sel sel', parse_selector f64_parse (lit "[id = 'a"", ""b']") = Ok sel
    /\ parse_selector f64_parse (selector_display f64_str sel) = Ok sel' /\ sel' <> sel.
Proof. do 2 eexists. split; [vm_compute; reflexivity|]. split; [vm_compute; reflexivity|]. discriminate. Qed.
Print Assumptions C33_quote_injection_refuted.
(** [f64] 1.0 is displayed as "1", which is read as an integer. *)
Theorem C33_float_refuted f64_str f64_parse b : f64_str b = lit "1" ->
  parse_selector f64_parse (selector_display f64_str (attr "id" CmEqual (SvNumber (NFloat b))))
    = Ok (attr "id" CmEqual (SvNumber (NInteger 1))).
Proof.
  intros E. assert (D : selector_display f64_str (attr "id" CmEqual (SvNumber (NFloat b))) = lit "[id = 1]").
  { unfold selector_display, attr. cbn [map concat expr_display]. unfold attribute_display. cbn [at_key at_comparison]. unfold comparison_display.
    cbn [cp_values map sel_value_display number_display cp_comparator cp_insensitive]. rewrite E. reflexivity. }
  rewrite D. vm_compute. reflexivity.
Qed.
Print Assumptions C33_float_refuted.
(** Identifiers may begin with several underscores in ids, but not in selectors; an empty text or
    selector, an absolute id with a member, cannot be read either. *)
Theorem C33_unreadable_refuted f64_str f64_parse : forall sel,
  In sel [ [];
           [XReference "__a"];
           attr "id" CmEqual (SvText "");
           attr "id" CmEqual (SvAbsolute (SID "a" "b" (Some (lit "c"))));
           [XNeighbor (NbForwardDirected [])] ] ->
  exists e, parse_selector f64_parse (selector_display f64_str sel) = Err e.
Proof.
  intros sel I. cbn [In] in I. repeat destruct I as [<-|I]; try (destruct I; fail); eexists; vm_compute; reflexivity.
Qed.
Print Assumptions C33_unreadable_refuted.
(** The grammar accepts 1e5 and 9223372036854775808, but reading them panics. *)
Theorem C33_number_panic_refuted f64_parse :
  parse_selector f64_parse (lit "[id = 1e5]") = Panic
  /\ parse_selector f64_parse (lit "[id = 9223372036854775808]") = Panic.
Proof. split; vm_compute; reflexivity. Qed.
Print Assumptions C33_number_panic_refuted.

(** ** Cases *)
(** A selector with every kind of expression is printable. *)
Definition c33_value : sel_value := SvAbsolute (SID "smithy.api" "required" None).
Definition c33_sel : selector :=
  [XShapeType TyStructure;
   XAttribute (Attribute (Key "trait" [PsValue c33_value; PsFunction "keys"]) (Some (Comparison CmContains [SvText "a b"; SvNumber (NInteger (-3))] true)));
   XScoped (Scoped (Some (Key "trait" [])) [Assertion (ScContext [PsValue (SvRoot "min")]) CmLess [ScContext [PsValue (SvRoot "max")]; ScValue (SvNumber (NInteger 7))] false]);
   XNeighbor (NbForwardDirected [lit "input"; lit "output"]);
   XFunction "not" [[XNeighbor NbForward; XShapeType TyAny]; [XReference "v"]];
   XDefine "v" [XFunction "test" [[XNeighbor NbRecursive]]]].
Lemma c33_quotable s : Forall (fun c => is_alpha c = true \/ c = " "%char) s -> quotable 34 s.
Proof.
  induction 1 as [|c s C F IH]; [constructor|].
  assert (R : (32 <= N_of_ascii c < 128 /\ N_of_ascii c <> 34 /\ N_of_ascii c <> 92)%N).
  { destruct C as [C|C].
    - unfold is_alpha, is_upper, is_lower, in_range in C.
      apply orb_true_iff in C as [C|C]; apply andb_true_iff in C as [C1 C2]; apply N.leb_le in C1, C2; unfold ch_N in *; lia.
    - rewrite C. vm_compute. repeat split; discriminate. }
  apply (quotable_cons _ _ (N_of_ascii c) s); [|lia..|exact IH].
  cbn [Peg.decode1]. destruct (N.ltb_spec (ch_N c) 128) as [L|L]; [reflexivity|unfold ch_N in L; lia].
Qed.
Ltac c33_ident := eexists; eexists; split; [left; reflexivity|split; [reflexivity|repeat constructor]].
Example C33_ex f64_str f64_parse :
  printable f64_str f64_parse c33_sel
  /\ (forall v, In v (selector_values c33_sel) -> value_faithful f64_str f64_parse v)
  /\ selector_display f64_str c33_sel = lit "structure [trait|smithy.api#required|(keys) *= ""a b"", -3 i] [@trait: @{min} < @{max}, 7] -[input, output]-> :not(> *, ${v}) $v(:test(~>))".
Proof.
  assert (Q : quotable 34 (lit "a b")) by (apply c33_quotable; repeat constructor; auto).
  split; [|split].
  - split; [discriminate|]. unfold c33_sel.
    repeat first
      [ exact I | exact Q | assumption | discriminate | lia
      | match goal with
        | |- Forall _ _ => constructor
        | |- expr_shaped _ _ => constructor
        | |- short_identifier _ => c33_ident
        | |- value_printable _ _ (SvAbsolute _) => cbn [value_printable c33_value sid_member sid_name sid_ns]
        | |- exists ids, ids <> [] /\ Forall short_identifier ids /\ _ = _ => exists [lit "smithy"; lit "api"]
        | |- _ /\ _ => split
        | |- _ = _ => reflexivity
        end
      | progress cbn [attribute_shaped scoped_shaped key_shaped comparison_shaped assertion_shaped scoped_value_shaped segment_shaped
                      neighbor_printable value_printable at_key at_comparison key_id key_path sc_key sc_assertions cp_comparator cp_values
                      as_lhs as_comparator as_rhs]
      | progress unfold attribute_shaped, scoped_shaped, key_shaped, comparison_shaped, assertion_shaped, comparator_printable, c33_value ].
  - intros v V. vm_compute in V. repeat destruct V as [<-|V]; try (destruct V; fail); try exact I. exact Q.
  - vm_compute. reflexivity.
Qed.
