(** atelier-smithy/src/selector.pest, rule by rule. *)
From Verif.Model Require Export Peg.

Inductive srule :=
| S_EOI | S_input | S_selector | S_selector_expression | S_shape_types
| S_forward_undirected | S_reverse_undirected | S_forward_directed | S_reverse_directed
| S_directed_relationships | S_forward_recursive
| S_attr | S_attr_comparison | S_case_suffix | S_key | S_path | S_path_segment | S_value
| S_function_property | S_attr_values
| S_comparator | S_string_comparator | S_numeric_comparator | S_projection_comparator
| S_string_eq | S_string_neq | S_string_starts | S_string_ends | S_string_in | S_string_exist
| S_number_gt | S_number_gte | S_number_lt | S_number_lte
| S_projection_eq | S_projection_neq | S_projection_subset | S_projection_proper
| S_scoped_attr | S_scoped_assertions | S_scoped_assertion | S_scoped_value | S_context_value | S_scoped_values
| S_function | S_function_args
| S_text | S_single_quoted_text | S_double_quoted_text | S_single_quoted_char | S_double_quoted_char
| S_variable_set | S_variable_get
| S_identifier | S_namespace | S_root_shape_id | S_absolute_root_shape_id
| S_number | S_decimal_point | S_e | S_exp | S_fraction | S_int | S_minus | S_plus | S_zero.

Definition tok (s : string) : pexp srule := PStr (lit s).
Definition call : srule -> pexp srule := PCall.
(** [a ~ (sep ~ a)*], the form of all lists. *)
Definition list_of (sep : string) (a : pexp srule) : pexp srule := PSeq a (PStar (PSeq (tok sep) a)).
Definition ident_char : pexp srule := PAlts [ASCII_ALPHA; ASCII_DIGIT; tok "_"].

(** selector.pest:4-218. *)
Definition selector_rule (r : srule) : kind * pexp srule :=
  match r with
  | S_EOI => (Normal, PEnd)
  | S_input => (Normal, PSeqs [PStr []; call S_selector; call S_EOI])                        (* 4-5 *)
  | S_selector => (Normal, PPlus (call S_selector_expression))                               (* 7-8 *)
  | S_selector_expression =>                                                                 (* 10-21 *)
      (Normal, PAlts [call S_shape_types; call S_attr; call S_scoped_attr; call S_function;
                      call S_forward_directed; call S_reverse_directed; call S_forward_undirected;
                      call S_reverse_undirected; call S_forward_recursive; call S_variable_set;
                      call S_variable_get])
  | S_shape_types => (Normal, PAlt (tok "*") (call S_identifier))                            (* 23-24 *)
  | S_forward_undirected => (Normal, tok ">")                                                (* 26-27 *)
  | S_reverse_undirected => (Normal, tok "<")                                                (* 29-30 *)
  | S_forward_directed => (Normal, PSeqs [tok "-["; call S_directed_relationships; tok "]->"]) (* 32-33 *)
  | S_reverse_directed => (Normal, PSeqs [tok "<-["; call S_directed_relationships; tok "]-"]) (* 35-36 *)
  | S_directed_relationships => (Normal, list_of "," (call S_identifier))                    (* 38-39 *)
  | S_forward_recursive => (Normal, tok "~>")                                                (* 41-42 *)
  | S_attr => (Normal, PSeqs [tok "["; call S_key; POpt (call S_attr_comparison); tok "]"])  (* 44-45 *)
  | S_attr_comparison =>                                                                     (* 47-48 *)
      (Normal, PSeqs [call S_comparator; call S_attr_values; POpt (call S_case_suffix)])
  | S_case_suffix => (Normal, tok "i")                                                       (* 50 *)
  | S_key => (Normal, PSeq (call S_identifier) (POpt (PSeq (tok "|") (call S_path))))        (* 52-53 *)
  | S_path => (Normal, list_of "|" (call S_path_segment))                                    (* 55-56 *)
  | S_path_segment => (Normal, PAlt (call S_value) (call S_function_property))               (* 58-59 *)
  | S_value => (Normal, PAlts [call S_text; call S_number; call S_root_shape_id])            (* 61-62 *)
  | S_function_property => (Normal, PSeqs [tok "("; call S_identifier; tok ")"])             (* 64-65 *)
  | S_attr_values => (Normal, list_of "," (call S_value))                                    (* 67-68 *)
  | S_comparator =>                                                                          (* 70-73 *)
      (Normal, PAlts [call S_string_comparator; call S_numeric_comparator; call S_projection_comparator])
  | S_string_comparator =>                                                                   (* 75-81 *)
      (Normal, PAlts [call S_string_eq; call S_string_neq; call S_string_starts; call S_string_ends;
                      call S_string_in; call S_string_exist])
  | S_string_eq => (Normal, tok "=")                                                         (* 83-93 *)
  | S_string_neq => (Normal, tok "!=")
  | S_string_starts => (Normal, tok "^=")
  | S_string_ends => (Normal, tok "$=")
  | S_string_in => (Normal, tok "*=")
  | S_string_exist => (Normal, tok "?=")
  | S_numeric_comparator =>                                                                  (* 95-99 *)
      (Normal, PAlts [call S_number_gt; call S_number_gte; call S_number_lt; call S_number_lte])
  | S_number_gt => (Normal, tok ">")                                                         (* 101-107 *)
  | S_number_gte => (Normal, tok ">=")
  | S_number_lt => (Normal, tok "<")
  | S_number_lte => (Normal, tok "<=")
  | S_projection_comparator =>                                                               (* 109-113 *)
      (Normal, PAlts [call S_projection_eq; call S_projection_neq; call S_projection_subset;
                      call S_projection_proper])
  | S_projection_eq => (Normal, tok "{=}")                                                   (* 115-121 *)
  | S_projection_neq => (Normal, tok "{!=}")
  | S_projection_subset => (Normal, tok "{<}")
  | S_projection_proper => (Normal, tok "{<<}")
  | S_scoped_attr =>                                                                         (* 123-124 *)
      (Normal, PSeqs [tok "[@"; POpt (call S_key); tok ":"; call S_scoped_assertions; tok "]"])
  | S_scoped_assertions => (Normal, list_of "&&" (call S_scoped_assertion))                  (* 126-127 *)
  | S_scoped_assertion =>                                                                    (* 131-132 *)
      (Normal, PSeqs [call S_scoped_value; call S_comparator; call S_scoped_values; POpt (call S_case_suffix)])
  | S_scoped_value => (Normal, PAlt (call S_value) (call S_context_value))                   (* 134-135 *)
  | S_context_value => (Normal, PSeqs [tok "@{"; call S_path; tok "}"])                      (* 137-138 *)
  | S_scoped_values => (Normal, list_of "," (call S_scoped_value))                           (* 140-141 *)
  | S_function =>                                                                            (* 143-144 *)
      (Normal, PSeqs [tok ":"; call S_identifier; tok "("; call S_function_args; tok ")"])
  | S_function_args => (Normal, list_of "," (call S_selector))                               (* 146-147 *)
  | S_text => (Normal, PAlt (call S_single_quoted_text) (call S_double_quoted_text))         (* 150-151 *)
  | S_single_quoted_text =>                                                                  (* 153-154 *)
      (Atomic, PSeqs [tok "'"; PPlus (call S_single_quoted_char); tok "'"])
  | S_double_quoted_text =>                                                                  (* 156-157 *)
      (Atomic, PSeqs [PStr [ascii_of_N 34]; PPlus (call S_double_quoted_char); PStr [ascii_of_N 34]])
  | S_single_quoted_char => (Normal, PAlts [PRange 32 38; PRange 40 91; PRange 93 1114111])  (* 159-160 *)
  | S_double_quoted_char => (Normal, PAlts [PRange 32 33; PRange 35 91; PRange 93 1114111])  (* 162-163 *)
  | S_variable_set =>                                                                        (* 165-166 *)
      (Normal, PSeqs [tok "$"; call S_identifier; tok "("; call S_selector; tok ")"])
  | S_variable_get => (Normal, PSeqs [tok "${"; call S_identifier; tok "}"])                 (* 168-169 *)
  | S_identifier =>                                                                          (* 175-177 *)
      (Atomic, PAlt (PSeq ASCII_ALPHA (PStar ident_char))
                    (PSeqs [tok "_"; ASCII_ALPHA; PStar ident_char]))
  | S_namespace => (Atomic, list_of "." (call S_identifier))                                 (* 179-180 *)
  | S_root_shape_id => (Normal, PAlt (call S_absolute_root_shape_id) (call S_identifier))    (* 182-183 *)
  | S_absolute_root_shape_id =>                                                              (* 185-186 *)
      (Atomic, PSeqs [call S_namespace; tok "#"; call S_identifier])
  | S_number =>                                                                              (* 188-189 *)
      (Atomic, PSeqs [POpt (call S_minus); call S_int; POpt (call S_fraction); POpt (call S_exp)])
  | S_decimal_point => (Normal, tok ".")                                                     (* 191-192 *)
  | S_e => (Normal, PAlt (tok "e") (tok "E"))                                                (* 194-195 *)
  | S_exp => (Normal, PSeqs [call S_e; POpt (PAlt (call S_minus) (call S_plus)); PPlus ASCII_DIGIT]) (* 197-198 *)
  | S_fraction => (Normal, PSeq (call S_decimal_point) (PPlus ASCII_DIGIT))                  (* 200-201 *)
  | S_int => (Normal, PAlt (call S_zero) (PSeq ASCII_NONZERO_DIGIT (PStar ASCII_DIGIT)))     (* 203-204 *)
  | S_minus => (Normal, tok "-")                                                             (* 206-207 *)
  | S_plus => (Normal, tok "+")                                                              (* 209-210 *)
  | S_zero => (Normal, tok "0")                                                              (* 212-213 *)
  end.
(** [WHITESPACE], selector.pest:218. *)
Definition selector_space (c : ascii) : bool :=
  Ascii.eqb c " " || Ascii.eqb c (ascii_of_N 9) || Ascii.eqb c (ascii_of_N 10).
Definition selector_grammar : grammar srule := Grammar selector_rule selector_space.
