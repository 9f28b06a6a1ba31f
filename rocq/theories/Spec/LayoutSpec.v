(** When two Smithy IDL documents differ in their layout only: the white space, commas and comments between
    tokens, which the Smithy 1.0 specification declares to be without meaning. No reference to the grammar
    of the parser. *)
From Verif.Model Require Import Base Values.
From Verif.Model Require Peg.
From Verif.Spec Require Import SmithySpec.

(** The characters of a comment: a tab, or U+0020 to U+10FFF (the grammar says 10FFF where Smithy says 10FFFF). *)
Inductive comment_text : str -> Prop :=
| comment_nil : comment_text []
| comment_cons s c s' : Peg.decode1 s = Some (c, s') -> c = 9%N \/ (32 <= c <= 69631)%N -> comment_text s' -> comment_text s.

Definition space_char (c : ascii) : bool :=
  existsb (Ascii.eqb c) [" "; ","; ascii_of_N 9; ascii_of_N 10; ascii_of_N 13]%char.
(** Spaces, tabs, line ends, commas and line comments, in any number and order. *)
Inductive layout : str -> Prop :=
| layout_nil : layout []
| layout_char c w : space_char c = true -> layout w -> layout (c :: w)
| layout_comment b e w : comment_text b -> hd_error b <> Some "/"%char -> e = ascii_of_N 10 \/ e = ascii_of_N 13 ->
    layout w -> layout ("/"%char :: "/"%char :: b ++ e :: w).

(** What stands between double quotes: no control characters; a backslash takes the next character with it. *)
Inductive text_body : str -> Prop :=
| text_nil : text_body []
| text_plain s c s' : Peg.decode1 s = Some (c, s') -> (32 <= c <= 69631)%N -> c <> 34%N -> c <> 92%N ->
    text_body s' -> text_body s
| text_escape s c s' : Peg.decode1 s = Some (c, s') -> (32 <= c <= 69631)%N -> text_body s' ->
    text_body (ascii_of_N 92 :: s).

(** What stands between three double quotes: white space and texts with quotes in them, but not three in a row. *)
Definition three_quotes : str := [dquote; dquote; dquote].
Inductive block_body : str -> Prop :=
| block_nil : block_body []
| block_quote s : (forall r, dquote :: s ++ three_quotes <> three_quotes ++ r) -> block_body s -> block_body (dquote :: s)
| block_white c s : In c [ascii_of_N 9; ascii_of_N 10; ascii_of_N 13] -> block_body s -> block_body (c :: s)
| block_plain s c s' : Peg.decode1 s = Some (c, s') -> (32 <= c <= 69631)%N -> c <> 34%N -> c <> 92%N -> block_body s' -> block_body s
| block_escape s c s' : Peg.decode1 s = Some (c, s') -> (32 <= c <= 69631)%N -> block_body s' -> block_body (ascii_of_N 92 :: s).

(** The layout between the first three quotes and this text has ended: neither white space, nor a comma, nor a comment
    of two slashes follows. *)
Definition after_layout (t : str) : Prop :=
  (forall c u, t = c :: u -> space_char c = false) /\ forall r, t = lit "//" ++ r -> hd_error r = Some "/"%char.
Definition block_quoted (h t : str) : str := three_quotes ++ h ++ t ++ three_quotes.

(** The other characters of tokens. *)
Definition symbol (c : ascii) : bool :=
  ((33 <=? N_of_ascii c) && (N_of_ascii c <=? 126))%N && negb (existsb (Ascii.eqb c) [dquote; "/"; ","]%char).
(** After these, layout can be added and removed; before them, too, but for the parenthesis, which belongs to
    the trait it follows. *)
Definition delimiter (c : ascii) : bool := existsb (Ascii.eqb c) ["{"; "}"; "["; "]"; "("; ")"; ":"; "="]%char.
Definition closes (c : ascii) : bool := delimiter c && negb (Ascii.eqb c "(").
Definition closed (s : str) : Prop := match s with [] => True | c :: _ => closes c = true end.
(** Two gaps after a word and before [s]: neither is empty, or both are, unless the gap does not matter. *)
Definition gaps (g g' s : str) : Prop := layout g /\ layout g' /\ ((g = [] <-> g' = []) \/ closed s).

(** Two texts with the same tokens, which both start with a token. *)
Inductive same : str -> str -> Prop :=
| same_end : same [] []
| same_char c g g' s t : symbol c = true -> delimiter c = false -> gaps g g' s -> same s t ->
    same (c :: g ++ s) (c :: g' ++ t)
| same_delimiter c g g' s t : delimiter c = true -> layout g -> layout g' -> same s t ->
    same (c :: g ++ s) (c :: g' ++ t)
| same_text q g g' s t : text_body q -> gaps g g' s -> (g = [] -> hd_error s <> Some dquote) -> same s t ->
    same (quoted q ++ g ++ s) (quoted q ++ g' ++ t)
| same_block q h h' g g' s t : layout h -> layout h' -> block_body q -> after_layout q -> gaps g g' s -> same s t ->
    same (block_quoted h q ++ g ++ s) (block_quoted h' q ++ g' ++ t)
| same_documentation b g g' s t : comment_text b -> layout g -> layout g' -> same s t ->
    same (lit "///" ++ b ++ ascii_of_N 10 :: g ++ s) (lit "///" ++ b ++ ascii_of_N 10 :: g' ++ t).
(** Two documents with the same tokens. *)
Inductive same_tokens : str -> str -> Prop :=
| same_tokens_intro g g' s t : layout g -> layout g' -> same s t -> same_tokens (g ++ s) (g' ++ t).
