(** What a selector looks like as text, whatever its layout: the words and signs that say it, in order, and
    how they may be laid out. Written from the grammar of selectors in the Smithy specification, restricted as
    atelier-smithy/src/selector.pest does (no empty text, at most one underscore in front of a name, no [>=] and
    no [<=]); no reference to the parser. *)
From Verif.Model Require Import Base Values Selector.
From Verif.Spec Require Import SelectorSpec.

(** ** Layout *)
Definition blank (c : ascii) : Prop := c = " "%char \/ c = ascii_of_N 9 \/ c = ascii_of_N 10.
Definition name_start (c : ascii) : Prop := is_alpha c = true \/ c = "_"%char.
Definition name_part (c : ascii) : Prop := is_alpha c = true \/ is_digit c = true \/ c = "_"%char.
(** Tokens that mean something else when nothing stands between them: two words, such as [list] and [map];
    [<] and the start of [-[...]->], which would be read as [<-[...]-]. *)
Definition needs_blank (t t' : str) : Prop :=
  (exists c r c' r', t = c :: r /\ name_start c /\ t' = c' :: r' /\ name_part c')
  \/ (t = lit "<" /\ t' = lit "-[").
(** The tokens in order, with blanks before, between and after them: as many as one likes, and at least one
    where it is needed. *)
Inductive spaced : list str -> str -> Prop :=
| spaced_end b : Forall blank b -> spaced [] b
| spaced_token b t ts s : Forall blank b -> spaced ts s ->
    (forall t' ts', ts = t' :: ts' -> needs_blank t t' -> exists c s', s = c :: s' /\ blank c) ->
    spaced (t :: ts) (b ++ t ++ s).

(** ** Tokens *)
(** Items with a separator between them, at least one. *)
Inductive listed {A} (item : A -> list str -> Prop) (sep : string) : list A -> list str -> Prop :=
| listed_one x ts : item x ts -> listed item sep [x] ts
| listed_more x l ts ts' : item x ts -> listed item sep l ts' -> listed item sep (x :: l) (ts ++ [lit sep] ++ ts').
Definition named (n : str) (ts : list str) : Prop := short_identifier n /\ ts = [n].

Definition type_word (t : shape_type) : str :=
  match t with
  | TyAny => "*" | TyNumber => "number" | TySimpleType => "simpleType" | TyCollection => "collection"
  | TyBlob => "blob" | TyBoolean => "boolean" | TyDocument => "document" | TyString => "string"
  | TyInteger => "integer" | TyByte => "byte" | TyShort => "short" | TyLong => "long" | TyFloat => "float"
  | TyDouble => "double" | TyBigDecimal => "bigDecimal" | TyBigInteger => "bigInteger"
  | TyTimestamp => "timestamp" | TyList => "list" | TySet => "set" | TyMap => "map"
  | TyStructure => "structure" | TyUnion => "union" | TyService => "service" | TyOperation => "operation"
  | TyResource => "resource" | TyMember => "member"
  end.
(** The comparators that can be written. *)
Inductive sign_of : comparator -> str -> Prop :=
| sign_eq : sign_of CmEqual (lit "=")
| sign_neq : sign_of CmNotEqual (lit "!=")
| sign_starts : sign_of CmStartsWith (lit "^=")
| sign_ends : sign_of CmEndsWith (lit "$=")
| sign_contains : sign_of CmContains (lit "*=")
| sign_exists : sign_of CmExists (lit "?=")
| sign_gt : sign_of CmGreater (lit ">")
| sign_lt : sign_of CmLess (lit "<")
| sign_proj_eq : sign_of CmProjEqual (lit "{=}")
| sign_proj_neq : sign_of CmProjNotEqual (lit "{!=}")
| sign_subset : sign_of CmProjSubset (lit "{<}")
| sign_proper : sign_of CmProjProperSubset (lit "{<<}").

Section Tokens.
  (** [FromStr] of [f64]. *)
  Variable f64_parse : str -> Z.

  (** Text in either kind of quotes; numbers with and without a fraction; names and shape ids. *)
  Inductive value_token : sel_value -> str -> Prop :=
  | tok_single s : s <> [] -> quotable 39 s -> value_token (SvText s) (lit "'" ++ s ++ lit "'")
  | tok_double s : s <> [] -> quotable 34 s -> value_token (SvText s) ([dquote] ++ s ++ [dquote])
  | tok_positive n w : whole w -> n = digits_value w -> (n <= 9223372036854775807)%Z -> value_token (SvNumber (NInteger n)) w
  | tok_negative n w : whole w -> n = (- digits_value w)%Z -> (-9223372036854775808 <= n)%Z ->
      value_token (SvNumber (NInteger n)) (lit "-" ++ w)
  | tok_float b t exp : decimal t -> exp = [] \/ exponent exp -> f64_parse (t ++ exp) = b -> value_token (SvNumber (NFloat b)) (t ++ exp)
  | tok_name n : short_identifier n -> value_token (SvRoot n) n
  | tok_id ids n : ids <> [] -> Forall short_identifier ids -> short_identifier n ->
      value_token (SvAbsolute (SID (join (lit ".") ids) n None)) (join (lit ".") ids ++ lit "#" ++ n).
  Definition says_value (v : sel_value) (ts : list str) : Prop := exists t, value_token v t /\ ts = [t].

  (** [a|b|(keys)] *)
  Inductive says_segment : path_segment -> list str -> Prop :=
  | say_value v t : value_token v t -> says_segment (PsValue v) [t]
  | say_property n : short_identifier n -> says_segment (PsFunction n) [lit "("; n; lit ")"].
  Inductive says_key : key -> list str -> Prop :=
  | say_id n : short_identifier n -> says_key (Key n []) [n]
  | say_path n p ts : short_identifier n -> listed says_segment "|" p ts -> says_key (Key n p) ([n; lit "|"] ++ ts).
  (** [i], for comparisons that ignore case. *)
  Definition suffix (insensitive : bool) : list str := if insensitive then [lit "i"] else [].
  Inductive says_attribute : attribute -> list str -> Prop :=
  | say_present k ts : says_key k ts -> says_attribute (Attribute k None) ([lit "["] ++ ts ++ [lit "]"])
  | say_compared k ts c sign vs ts' i : says_key k ts -> sign_of c sign -> listed says_value "," vs ts' ->
      says_attribute (Attribute k (Some (Comparison c vs i))) ([lit "["] ++ ts ++ [sign] ++ ts' ++ suffix i ++ [lit "]"]).
  Inductive says_scoped_value : scoped_value -> list str -> Prop :=
  | say_plain v t : value_token v t -> says_scoped_value (ScValue v) [t]
  | say_context p ts : listed says_segment "|" p ts -> says_scoped_value (ScContext p) ([lit "@{"] ++ ts ++ [lit "}"]).
  Inductive says_assertion : assertion -> list str -> Prop :=
  | say_assertion v ts c sign vs ts' i : says_scoped_value v ts -> sign_of c sign -> listed says_scoped_value "," vs ts' ->
      says_assertion (Assertion v c vs i) (ts ++ [sign] ++ ts' ++ suffix i).
  Inductive says_scoped : scoped -> list str -> Prop :=
  | say_unkeyed l ts : listed says_assertion "&&" l ts -> says_scoped (Scoped None l) ([lit "[@"; lit ":"] ++ ts ++ [lit "]"])
  | say_keyed k ts l ts' : says_key k ts -> listed says_assertion "&&" l ts' ->
      says_scoped (Scoped (Some k) l) ([lit "[@"] ++ ts ++ [lit ":"] ++ ts' ++ [lit "]"]).
  Inductive says_neighbor : neighbor -> list str -> Prop :=
  | say_forward : says_neighbor NbForward [lit ">"]
  | say_reverse : says_neighbor NbReverse [lit "<"]
  | say_forward_directed l ts : listed named "," l ts -> says_neighbor (NbForwardDirected l) ([lit "-["] ++ ts ++ [lit "]->"])
  | say_reverse_directed l ts : listed named "," l ts -> says_neighbor (NbReverseDirected l) ([lit "<-["] ++ ts ++ [lit "]-"])
  | say_recursive : says_neighbor NbRecursive [lit "~>"].

  Inductive says_expr : expr -> list str -> Prop :=
  | say_type t : says_expr (XShapeType t) [type_word t]
  | say_attribute a ts : says_attribute a ts -> says_expr (XAttribute a) ts
  | say_scoped s ts : says_scoped s ts -> says_expr (XScoped s) ts
  | say_neighbor n ts : says_neighbor n ts -> says_expr (XNeighbor n) ts
  | say_function n args ts : short_identifier n -> says_arguments args ts ->
      says_expr (XFunction n args) ([lit ":"; n; lit "("] ++ ts ++ [lit ")"])
  | say_define n sel ts : short_identifier n -> says_selector sel ts ->
      says_expr (XDefine n sel) ([lit "$"; n; lit "("] ++ ts ++ [lit ")"])
  | say_reference n : short_identifier n -> says_expr (XReference n) [lit "${"; n; lit "}"]
  (** Expressions one after the other, at least one. *)
  with says_selector : selector -> list str -> Prop :=
  | say_last x ts : says_expr x ts -> says_selector [x] ts
  | say_next x l ts ts' : says_expr x ts -> says_selector l ts' -> says_selector (x :: l) (ts ++ ts')
  with says_arguments : list selector -> list str -> Prop :=
  | say_only s ts : says_selector s ts -> says_arguments [s] ts
  | say_argument s l ts ts' : says_selector s ts -> says_arguments l ts' -> says_arguments (s :: l) (ts ++ [lit ","] ++ ts').

  (** The texts of a selector. *)
  Definition selector_text (sel : selector) (t : str) : Prop := exists ts, says_selector sel ts /\ spaced ts t.
End Tokens.
