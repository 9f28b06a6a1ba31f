(** The language of the Smithy IDL: which texts are documents. Written from the grammar of the Smithy 1.0 specification,
    with the deviations of this implementation: layout may be missing between any two tokens, texts and comments end at
    U+10FFF, and anything may follow the quotes that open a block. No reference to the parser or its grammar. *)
From Verif.Model Require Import Base Values.
From Verif.Model Require Peg.
From Verif.Spec Require Export SmithySpec LayoutSpec.

(** ** Languages *)
Definition lang := str -> Prop.
Definition word (s : string) : lang := fun t => t = lit s.
(** One text of each, one after the other. *)
Fixpoint parts (l : list lang) : lang :=
  match l with [] => fun t => t = [] | x :: l' => fun t => exists a b, x a /\ parts l' b /\ t = a ++ b end.
Definition either (a b : lang) : lang := fun t => a t \/ b t.
Definition optional (a : lang) : lang := fun t => t = [] \/ a t.
Inductive many (x : lang) : lang :=
| many_nil : many x []
| many_cons a b : x a -> many x b -> many x (a ++ b).
Definition some_of (x : lang) : lang := parts [x; many x].
Definition one_of_words (l : list string) : lang := fun t => In t (map lit l).

(** ** Tokens *)
Definition newline_text : lang := fun t => In t [[ascii_of_N 10]; [ascii_of_N 13; ascii_of_N 10]; [ascii_of_N 13]].
Definition absolute_id : lang := parts [dotted_name; word "#"; short_identifier].
Definition shape_ref : lang := parts [either absolute_id short_identifier; optional (parts [word "$"; short_identifier])].
Definition quoted_text : lang := fun t => exists b, text_body b /\ t = quoted b.
Definition entry_key : lang := either quoted_text short_identifier.
Definition digit : lang := fun t => exists c, is_digit c = true /\ t = [c].
Definition integer_text : lang := either (word "0") (fun t => exists c r, c <> "0"%char /\ is_digit c = true /\ many digit r /\ t = c :: r).
Definition number_text : lang :=
  parts [optional (word "-"); integer_text; optional (parts [word "."; some_of digit]);
         optional (parts [one_of_words ["e"; "E"]; optional (one_of_words ["-"; "+"]); some_of digit])].
(** A block. *)
Definition text_block : lang := parts [eq three_quotes; layout; block_body; eq three_quotes].

(** ** Values *)
Inductive node : lang :=
| node_array w l : layout w -> nodes l -> node (lit "[" ++ w ++ l ++ lit "]")
| node_object w l : layout w -> entries l -> node (lit "{" ++ w ++ l ++ lit "}")
| node_number t : number_text t -> node t
| node_keyword t : one_of_words ["true"; "false"; "null"] t -> node t
| node_ref t : shape_ref t -> node t
| node_block t : text_block t -> node t
| node_text_ t : quoted_text t -> node t
with nodes : lang :=
| nodes_nil : nodes []
| nodes_cons a w l : node a -> layout w -> nodes l -> nodes (a ++ w ++ l)
with entries : lang :=
| entries_nil : entries []
| entries_cons k w w' v w'' l : entry_key k -> layout w -> layout w' -> node v -> layout w'' -> entries l ->
    entries (k ++ w ++ lit ":" ++ w' ++ v ++ w'' ++ l).
Definition entry : lang := parts [entry_key; layout; word ":"; layout; node].
Definition object : lang := parts [word "{"; layout; entries; word "}"].

(** ** Shapes *)
Definition trait : lang :=
  parts [word "@"; shape_ref; optional (parts [word "("; layout; many (parts [either entry node; layout]); word ")"])].
Definition documentation : lang := parts [layout; word "///"; comment_text; newline_text].
Definition heading : lang := parts [many documentation; layout; many (parts [layout; trait]); layout].
Definition member : lang := parts [heading; short_identifier; layout; word ":"; layout; shape_ref].
Definition members : lang := parts [word "{"; layout; many (parts [member; layout]); word "}"].
Definition simple_types : list string :=
  ["blob"; "boolean"; "document"; "string"; "byte"; "short"; "integer"; "long"; "float"; "double"; "bigInteger"; "bigDecimal"; "timestamp"]%string.
Definition shape_body : lang := fun t =>
  parts [one_of_words simple_types; layout; short_identifier] t
  \/ parts [one_of_words ["list"; "set"; "map"; "structure"; "union"]; layout; short_identifier; layout; members] t
  \/ parts [one_of_words ["service"; "operation"; "resource"]; layout; short_identifier; layout; object] t.
Definition statement : lang :=
  either (parts [heading; shape_body; layout]) (parts [word "apply"; layout; shape_ref; layout; trait; layout]).

(** ** Documents *)
Definition control_statement : lang := parts [word "$"; layout; entry_key; layout; word ":"; layout; node; layout].
Definition metadata_statement : lang := parts [word "metadata"; layout; entry_key; layout; word "="; layout; node; layout].
Definition use_statement : lang := parts [word "use"; layout; absolute_id; layout].
Definition shapes_section : lang := parts [word "namespace"; layout; dotted_name; layout; many use_statement; many statement].
Definition idl_language : lang := parts [layout; many control_statement; many metadata_statement; optional shapes_section].

(** ** Brackets *)
(** Every kind of bracket is opened as often as it is closed. *)
Definition times (c : ascii) (t : str) : nat := count_occ ascii_dec t c.
Definition balanced : lang := fun t =>
  times "{" t = times "}" t /\ times "[" t = times "]" t /\ times "(" t = times ")" t.
(** Without texts and comments. *)
Definition bare : lang := fun t => ~ In dquote t /\ ~ In "/"%char t.
