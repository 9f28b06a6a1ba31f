(** atelier-smithy/src/smithy.pest, rule by rule. The grammar defines no [WHITESPACE]: nothing is skipped
    implicitly. *)
From Verif.Model Require Export Peg.

Inductive irule :=
| I_EOI | I_idl | I_ws | I_sp | I_br | I_line_comment | I_documentation_comment | I_documentation_text
| I_control_section | I_control_statement | I_version_string
| I_shape_id | I_root_shape_id | I_absolute_root_shape_id | I_namespace | I_identifier | I_shape_id_member
| I_node_value | I_node_array | I_trailing_comma | I_comma | I_node_object | I_node_object_kvp | I_node_object_key
| I_number | I_decimal_point | I_e | I_exp | I_frac | I_int | I_minus | I_plus | I_zero
| I_node_keywords | I_kw_true | I_kw_false | I_kw_null
| I_quoted_text | I_quoted_chars | I_escaped_char | I_unicode_escape | I_preserved_double | I_escape
| I_text_block | I_block_quoted_chars | I_DQUOTE
| I_shape_section | I_namespace_statement | I_use_section | I_use_statement | I_shape_statements | I_shape_statement
| I_shape_body | I_simple_shape_statement | I_simple_type_name
| I_type_blob | I_type_boolean | I_type_document | I_type_string | I_type_byte | I_type_short | I_type_integer
| I_type_long | I_type_float | I_type_double | I_type_big_integer | I_type_big_decimal | I_type_timestamp
| I_shape_members | I_shape_member_kvp
| I_list_statement | I_set_statement | I_map_statement | I_structure_statement | I_union_statement
| I_service_statement | I_operation_statement | I_resource_statement | I_apply_statement
| I_trait_statements | I_a_trait | I_trait_body | I_trait_body_value | I_trait_structure | I_trait_structure_kvp
| I_metadata_section | I_metadata_statement.

Definition itok (s : string) : pexp irule := PStr (lit s).
Definition icall : irule -> pexp irule := PCall.
Definition iws : pexp irule := icall I_ws.
Definition tab : pexp irule := PStr [ascii_of_N 9].
Definition word_char : pexp irule := PAlts [ASCII_ALPHA; ASCII_DIGIT; itok "_"].
(** Characters of comments: a tab or U+0020 to U+10FFF (sic). *)
Definition comment_char : pexp irule := PAlt tab (PRange 32 69631).
(** Characters of texts other than the quote and the backslash. *)
Definition plain_chars : list (pexp irule) := [PRange 32 33; PRange 35 91; PRange 93 69631].
Definition keyword (s : string) (a b : irule) : kind * pexp irule :=
  (Normal, PSeqs [itok s; iws; icall a; iws; icall b]).
Definition type_rules : list irule :=
  [I_type_blob; I_type_boolean; I_type_document; I_type_string; I_type_byte; I_type_short; I_type_integer;
   I_type_long; I_type_float; I_type_double; I_type_big_integer; I_type_big_decimal; I_type_timestamp].
Definition body_rules : list irule :=
  [I_simple_shape_statement; I_list_statement; I_set_statement; I_map_statement; I_structure_statement;
   I_union_statement; I_service_statement; I_operation_statement; I_resource_statement].

(** smithy.pest:1-274. *)
Definition smithy_rule (r : irule) : kind * pexp irule :=
  match r with
  | I_EOI => (Normal, PEnd)
  | I_idl =>                                                                                 (* 1-2 *)
      (Normal, PSeqs [PStr []; iws; icall I_control_section; icall I_metadata_section; icall I_shape_section;
                      icall I_EOI])
  | I_ws =>                                                                                  (* 4-5 *)
      (Silent, PStar (PAlts [icall I_sp; NEWLINE;
                             PAlt (PSeq (PNot (itok "///")) (icall I_line_comment)) (itok ",")]))
  | I_sp => (Silent, PAlt (itok " ") tab)                                                    (* 7-8 *)
  | I_br => (Silent, PSeq iws (POpt (icall I_EOI)))                                          (* 10-11 *)
  | I_line_comment => (Silent, PSeqs [itok "//"; PStar comment_char; NEWLINE])               (* 13-14 *)
  | I_documentation_comment =>                                                               (* 16-17 *)
      (Silent, PSeqs [iws; itok "///"; icall I_documentation_text; NEWLINE])
  | I_documentation_text => (Normal, PStar comment_char)                                     (* 19-20 *)
  | I_control_section => (Normal, PStar (icall I_control_statement))                         (* 22-23 *)
  | I_control_statement =>                                                                   (* 25-26 *)
      (Normal, PSeqs [itok "$"; iws; icall I_node_object_key; iws; itok ":"; iws; icall I_node_value; iws])
  | I_version_string =>                                                                      (* 28-29 *)
      (Normal, PSeq (PPlus ASCII_DIGIT) (POpt (PSeq (itok ".") (PPlus ASCII_DIGIT))))
  | I_shape_id => (Atomic, PSeq (icall I_root_shape_id) (POpt (icall I_shape_id_member)))    (* 31-32 *)
  | I_root_shape_id => (Normal, PAlt (icall I_absolute_root_shape_id) (icall I_identifier))  (* 34-35 *)
  | I_absolute_root_shape_id =>                                                              (* 37-38 *)
      (Normal, PSeqs [icall I_namespace; itok "#"; icall I_identifier])
  | I_namespace =>                                                                           (* 40-41 *)
      (Atomic, PSeq (icall I_identifier) (PStar (PSeq (itok ".") (icall I_identifier))))
  | I_identifier =>                                                                          (* 43-45 *)
      (Atomic, PAlt (PSeq ASCII_ALPHA (PStar word_char))
                    (PSeqs [itok "_"; ASCII_ALPHA; PStar word_char]))
  | I_shape_id_member => (Normal, PSeq (itok "$") (icall I_identifier))                      (* 47-48 *)
  | I_node_value =>                                                                          (* 50-51 *)
      (Normal, PAlts [icall I_node_array; icall I_node_object; icall I_number; icall I_node_keywords;
                      icall I_shape_id; icall I_text_block; icall I_quoted_text])
  | I_node_array =>                                                                          (* 53-54 *)
      (Normal, PSeqs [itok "["; iws; PStar (PSeq (icall I_node_value) iws); itok "]"])
  | I_trailing_comma => (Silent, POpt (icall I_comma))                                       (* 63-64 *)
  | I_comma => (Silent, PSeq (itok ",") iws)                                                 (* 66-67 *)
  | I_node_object =>                                                                         (* 69-70 *)
      (Normal, PSeqs [itok "{"; iws; PStar (PSeq (icall I_node_object_kvp) iws); itok "}"])
  | I_node_object_kvp | I_trait_structure_kvp =>                                             (* 79-80, 267-268 *)
      (Normal, PSeqs [icall I_node_object_key; iws; itok ":"; iws; icall I_node_value])
  | I_node_object_key => (Silent, PAlt (icall I_quoted_text) (icall I_identifier))           (* 82-83 *)
  | I_number =>                                                                              (* 85-86 *)
      (Normal, PSeqs [POpt (icall I_minus); icall I_int; POpt (icall I_frac); POpt (icall I_exp)])
  | I_decimal_point => (Normal, itok ".")                                                    (* 88-89 *)
  | I_e => (Normal, PAlt (itok "e") (itok "E"))                                              (* 91-92 *)
  | I_exp =>                                                                                 (* 94-95 *)
      (Normal, PSeqs [icall I_e; POpt (PAlt (icall I_minus) (icall I_plus)); PPlus ASCII_DIGIT])
  | I_frac => (Normal, PSeq (icall I_decimal_point) (PPlus ASCII_DIGIT))                     (* 97-98 *)
  | I_int => (Normal, PAlt (icall I_zero) (PSeq ASCII_NONZERO_DIGIT (PStar ASCII_DIGIT)))    (* 100-101 *)
  | I_minus => (Normal, itok "-")                                                            (* 103-104 *)
  | I_plus => (Normal, itok "+")                                                             (* 106-107 *)
  | I_zero => (Normal, itok "0")                                                             (* 109-110 *)
  | I_node_keywords => (Silent, PAlts [icall I_kw_true; icall I_kw_false; icall I_kw_null])  (* 112-113 *)
  | I_kw_true => (Normal, itok "true")                                                       (* 115-119 *)
  | I_kw_false => (Normal, itok "false")
  | I_kw_null => (Normal, itok "null")
  | I_quoted_text => (Normal, PSeqs [icall I_DQUOTE; icall I_quoted_chars; icall I_DQUOTE])  (* 121-122 *)
  | I_quoted_chars =>                                                                        (* 124-125 *)
      (Atomic, PStar (PAlts (plain_chars ++ [icall I_escaped_char; icall I_preserved_double])))
  | I_escaped_char =>                                                                        (* 127-128 *)
      (Normal, PSeq (icall I_escape)
                 (PAlts [icall I_escape; itok "'"; icall I_DQUOTE; itok "b"; itok "f"; itok "n"; itok "r"; itok "t";
                         itok "/"; icall I_unicode_escape]))
  | I_unicode_escape =>                                                                      (* 130-131 *)
      (Normal, PSeqs [itok "u"; ASCII_HEX_DIGIT; ASCII_HEX_DIGIT; ASCII_HEX_DIGIT; ASCII_HEX_DIGIT])
  | I_preserved_double => (Normal, PSeq (icall I_escape) (PAlts plain_chars))                (* 133-134 *)
  | I_escape => (Normal, PStr [ascii_of_N 92])                                               (* 136-137 *)
  | I_text_block =>                                                                          (* 139-140 *)
      (Normal, PSeqs [icall I_DQUOTE; icall I_DQUOTE; icall I_DQUOTE; icall I_br; icall I_block_quoted_chars;
                      icall I_DQUOTE; icall I_DQUOTE; icall I_DQUOTE])
  | I_block_quoted_chars =>                                                                  (* 145-146 *)
      (Atomic, PStar (PAlts ([PSeq (PNot (PStr [ascii_of_N 34; ascii_of_N 34; ascii_of_N 34])) (icall I_DQUOTE);
                              icall I_sp; NEWLINE]
                             ++ plain_chars ++ [icall I_escaped_char; icall I_preserved_double])))
  | I_DQUOTE => (Silent, PStr [ascii_of_N 34])                                               (* 148-149 *)
  | I_shape_section =>                                                                       (* 151-152 *)
      (Normal, POpt (PSeqs [icall I_namespace_statement; POpt (icall I_use_section); POpt (icall I_shape_statements)]))
  | I_namespace_statement => (Normal, PSeqs [itok "namespace"; iws; icall I_namespace; iws]) (* 154-155 *)
  | I_use_section => (Normal, PPlus (icall I_use_statement))                                 (* 157-158 *)
  | I_use_statement => (Normal, PSeqs [itok "use"; iws; icall I_absolute_root_shape_id; iws]) (* 160-161 *)
  | I_shape_statements =>                                                                    (* 163-164 *)
      (Normal, PPlus (PAlt (icall I_shape_statement) (icall I_apply_statement)))
  | I_shape_statement =>                                                                     (* 166-167 *)
      (Normal, PSeqs [PStar (icall I_documentation_comment); iws; icall I_trait_statements; icall I_shape_body; iws])
  | I_shape_body => (Silent, PAlts (map icall body_rules))                                   (* 169-171 *)
  | I_simple_shape_statement =>                                                              (* 173-174 *)
      (Normal, PSeqs [icall I_simple_type_name; iws; icall I_identifier])
  | I_simple_type_name => (Silent, PAlts (map icall type_rules))                             (* 176-178 *)
  | I_type_blob => (Normal, itok "blob")                                                     (* 180-204 *)
  | I_type_boolean => (Normal, itok "boolean")
  | I_type_document => (Normal, itok "document")
  | I_type_string => (Normal, itok "string")
  | I_type_byte => (Normal, itok "byte")
  | I_type_short => (Normal, itok "short")
  | I_type_integer => (Normal, itok "integer")
  | I_type_long => (Normal, itok "long")
  | I_type_float => (Normal, itok "float")
  | I_type_double => (Normal, itok "double")
  | I_type_big_integer => (Normal, itok "bigInteger")
  | I_type_big_decimal => (Normal, itok "bigDecimal")
  | I_type_timestamp => (Normal, itok "timestamp")
  | I_shape_members =>                                                                       (* 206-207 *)
      (Normal, PSeqs [itok "{"; iws; PStar (PSeq (icall I_shape_member_kvp) iws); itok "}"])
  | I_shape_member_kvp =>                                                                    (* 216-217 *)
      (Normal, PSeqs [PStar (icall I_documentation_comment); iws; icall I_trait_statements; icall I_identifier; iws;
                      itok ":"; iws; icall I_shape_id])
  | I_list_statement => keyword "list" I_identifier I_shape_members                          (* 219-241 *)
  | I_set_statement => keyword "set" I_identifier I_shape_members
  | I_map_statement => keyword "map" I_identifier I_shape_members
  | I_structure_statement => keyword "structure" I_identifier I_shape_members
  | I_union_statement => keyword "union" I_identifier I_shape_members
  | I_service_statement => keyword "service" I_identifier I_node_object
  | I_operation_statement => keyword "operation" I_identifier I_node_object
  | I_resource_statement => keyword "resource" I_identifier I_node_object
  | I_apply_statement =>                                                                     (* 243-244 *)
      (Normal, PSeqs [itok "apply"; iws; icall I_shape_id; iws; icall I_a_trait; iws])
  | I_trait_statements => (Normal, PSeq (PStar (PSeq iws (icall I_a_trait))) iws)            (* 246-247 *)
  | I_a_trait => (Normal, PSeqs [itok "@"; icall I_shape_id; POpt (icall I_trait_body)])     (* 249-250 *)
  | I_trait_body =>                                                                          (* 252-259 *)
      (Silent, PSeqs [itok "("; iws; PStar (PSeq (icall I_trait_body_value) iws); itok ")"])
  | I_trait_body_value => (Silent, PAlt (icall I_trait_structure) (icall I_node_value))      (* 261-262 *)
  | I_trait_structure =>                                                                     (* 264-265 *)
      (Silent, PSeq (icall I_trait_structure_kvp) (PStar (PSeq iws (icall I_trait_structure_kvp))))
  | I_metadata_section => (Normal, PStar (icall I_metadata_statement))                       (* 270-271 *)
  | I_metadata_statement =>                                                                  (* 273-274 *)
      (Normal, PSeqs [itok "metadata"; iws; icall I_node_object_key; iws; itok "="; iws; icall I_node_value; iws])
  end.
Definition smithy_grammar : grammar irule := Grammar smithy_rule (fun _ => false).
