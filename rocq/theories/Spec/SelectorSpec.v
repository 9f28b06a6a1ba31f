(** Which selectors can be written down: written from the grammar in the Smithy 1.0 specification of
    selectors, restricted as atelier-smithy/src/selector.pest does; no reference to the parser. *)
From Verif.Model Require Import Base Values Selector.
From Verif.Model Require Peg.

(** An identifier with at most one underscore in front. *)
Definition short_identifier (s : str) : Prop :=
  exists c rest, (s = c :: rest \/ s = "_"%char :: c :: rest)
    /\ is_alpha c = true
    /\ Forall (fun x => is_alpha x = true \/ is_digit x = true \/ x = "_"%char) rest.

(** Text that may stand between quotes [q]: no control characters, quotes or backslashes.
    [decode1] splits off the first character of a UTF-8 text. *)
Inductive quotable (q : N) : str -> Prop :=
| quotable_nil : quotable q []
| quotable_cons s c s' : Peg.decode1 s = Some (c, s') ->
    (32 <= c)%N -> c <> q -> c <> 92%N -> (c <= 1114111)%N -> quotable q s' -> quotable q s.

(** [-]int.digits *)
Definition all_digits (s : str) : Prop := Forall (fun c => is_digit c = true) s.
Definition whole (s : str) : Prop :=
  s = lit "0" \/ exists c r, s = c :: r /\ in_range 49 57 c = true /\ all_digits r.
Definition decimal (t : str) : Prop :=
  exists sign int frac, t = sign ++ int ++ "."%char :: frac
    /\ (sign = [] \/ sign = lit "-") /\ whole int /\ frac <> [] /\ all_digits frac.

(** The other numbers that the grammar allows: an exponent, [(e|E)[+|-]digits]. *)
Definition exponent (t : str) : Prop :=
  exists e sign d, t = e :: sign ++ d /\ (e = "e"%char \/ e = "E"%char)
    /\ (sign = [] \/ sign = lit "-" \/ sign = lit "+") /\ d <> [] /\ all_digits d.
(** A number without decimal point that is not an [i64]: it has an exponent or is out of range. *)
Definition digits_value (s : str) : Z := fold_left (fun v c => (v * 10 + (Z.of_N (N_of_ascii c) - 48))%Z) s 0%Z.
Definition not_i64 (w : str) : Prop :=
  exists sign int exp, w = sign ++ int ++ exp /\ (sign = [] \/ sign = lit "-") /\ whole int
    /\ (exponent exp
        \/ exp = [] /\ (digits_value int > if str_eqb sign [] then 9223372036854775807 else 9223372036854775808)%Z).

(** [f64_str] and [f64_parse] are [Display] and [FromStr] of [f64]. *)
Definition value_printable (f64_str : Z -> str) (f64_parse : str -> Z) (v : sel_value) : Prop :=
  match v with
  | SvText s => s <> [] /\ quotable 34 s
  | SvNumber (NInteger n) => (-9223372036854775808 <= n <= 9223372036854775807)%Z
  | SvNumber (NFloat b) => decimal (f64_str b) /\ f64_parse (f64_str b) = b
  | SvRoot n => short_identifier n
  | SvAbsolute id =>
      sid_member id = None /\ short_identifier (sid_name id)
      /\ exists ids, ids <> [] /\ Forall short_identifier ids /\ sid_ns id = join ["."%char] ids
  end.

(** Selectors whose names are identifiers, whose lists are not empty and whose values are [value_ok]. *)
Section Shaped.
  Variable value_ok : sel_value -> Prop.

  Definition segment_shaped (p : path_segment) : Prop :=
    match p with PsValue v => value_ok v | PsFunction n => short_identifier n end.
  Definition key_shaped (k : key) : Prop :=
    short_identifier (key_id k) /\ Forall segment_shaped (key_path k).
  (** The grammar lists the comparators >= and <=, but can never match them. *)
  Definition comparator_printable (c : comparator) : Prop := c <> CmGreaterEqual /\ c <> CmLessEqual.
  Definition comparison_shaped (c : comparison_) : Prop :=
    comparator_printable (cp_comparator c) /\ cp_values c <> [] /\ Forall value_ok (cp_values c).
  Definition attribute_shaped (a : attribute) : Prop :=
    key_shaped (at_key a)
    /\ match at_comparison a with Some c => comparison_shaped c | None => True end.
  Definition scoped_value_shaped (v : scoped_value) : Prop :=
    match v with
    | ScValue v => value_ok v
    | ScContext p => p <> [] /\ Forall segment_shaped p
    end.
  Definition assertion_shaped (a : assertion) : Prop :=
    scoped_value_shaped (as_lhs a) /\ comparator_printable (as_comparator a)
    /\ as_rhs a <> [] /\ Forall scoped_value_shaped (as_rhs a).
  Definition scoped_shaped (s : scoped) : Prop :=
    match sc_key s with Some k => key_shaped k | None => True end
    /\ sc_assertions s <> [] /\ Forall assertion_shaped (sc_assertions s).
  Definition neighbor_printable (n : neighbor) : Prop :=
    match n with
    | NbForwardDirected l | NbReverseDirected l => l <> [] /\ Forall short_identifier l
    | _ => True
    end.
  Inductive expr_shaped : expr -> Prop :=
  | pr_type t : expr_shaped (XShapeType t)
  | pr_attribute a : attribute_shaped a -> expr_shaped (XAttribute a)
  | pr_scoped s : scoped_shaped s -> expr_shaped (XScoped s)
  | pr_neighbor n : neighbor_printable n -> expr_shaped (XNeighbor n)
  | pr_function n args : short_identifier n -> args <> [] ->
      Forall (fun sel => sel <> [] /\ Forall expr_shaped sel) args -> expr_shaped (XFunction n args)
  | pr_define n sel : short_identifier n -> sel <> [] -> Forall expr_shaped sel -> expr_shaped (XDefine n sel)
  | pr_reference n : short_identifier n -> expr_shaped (XReference n).
  Definition selector_shaped (s : selector) : Prop := s <> [] /\ Forall expr_shaped s.
End Shaped.
Definition printable (f64_str : Z -> str) (f64_parse : str -> Z) : selector -> Prop :=
  selector_shaped (value_printable f64_str f64_parse).

(** What can be in a value that was read from text. *)
Definition value_parsed (f64_parse : str -> Z) (v : sel_value) : Prop :=
  match v with
  | SvText s => s <> [] /\ (quotable 34 s \/ quotable 39 s)
  | SvNumber (NInteger n) => (-9223372036854775808 <= n <= 9223372036854775807)%Z
  | SvNumber (NFloat b) => exists t exp, decimal t /\ (exp = [] \/ exponent exp) /\ b = f64_parse (t ++ exp)
  | SvRoot n => short_identifier n
  | SvAbsolute id =>
      sid_member id = None /\ short_identifier (sid_name id)
      /\ exists ids, ids <> [] /\ Forall short_identifier ids /\ sid_ns id = join ["."%char] ids
  end.

(** The values that occur in a selector. *)
Definition segment_values (p : path_segment) : list sel_value := match p with PsValue v => [v] | PsFunction _ => [] end.
Definition key_values (k : key) : list sel_value := flat_map segment_values (key_path k).
Definition scoped_value_values (v : scoped_value) : list sel_value :=
  match v with ScValue v => [v] | ScContext p => flat_map segment_values p end.
Definition assertion_values (a : assertion) : list sel_value :=
  scoped_value_values (as_lhs a) ++ flat_map scoped_value_values (as_rhs a).
Fixpoint expr_values (x : expr) : list sel_value :=
  match x with
  | XAttribute a => key_values (at_key a) ++ match at_comparison a with Some c => cp_values c | None => [] end
  | XScoped s => match sc_key s with Some k => key_values k | None => [] end ++ flat_map assertion_values (sc_assertions s)
  | XFunction _ args => flat_map (flat_map expr_values) args
  | XDefine _ sel => flat_map expr_values sel
  | _ => []
  end.
Definition selector_values (sel : selector) : list sel_value := flat_map expr_values sel.
(** Values that are not changed by writing them: texts without double quotes; floats that are written with a
    decimal point and read back. *)
Definition value_faithful (f64_str : Z -> str) (f64_parse : str -> Z) (v : sel_value) : Prop :=
  match v with
  | SvText s => quotable 34 s
  | SvNumber (NFloat b) => decimal (f64_str b) /\ f64_parse (f64_str b) = b
  | _ => True
  end.
