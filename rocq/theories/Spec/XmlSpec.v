(** A small specification of well-formed XML text: what it means for a text to spell a tree
    (XML 1.0, sections 2.1, 2.3, 2.4, 2.8, 3, 3.1; no comments, references, CDATA or DTD). *)
From Verif.Model Require Import Base.

(** An element holding text, or an element holding elements. *)
Inductive xml :=
| Leaf (tag : str) (attrs : list (str * str)) (text : str)
| Node (tag : str) (attrs : list (str * str)) (kids : list xml).

(** White space, section 2.3. *)
Definition blank_ch (c : ascii) : bool := (ch_N c =? 32)%N || (ch_N c =? 9)%N || (ch_N c =? 10)%N || (ch_N c =? 13)%N.
Definition blank (s : str) : Prop := forallb blank_ch s = true.
(** Characters that may occur at all, section 2.2 (bytes of a multi-byte character are taken as is). *)
Definition xml_ch (c : ascii) : bool := blank_ch c || (32 <=? ch_N c)%N.
(** Names, section 2.3, restricted to ASCII. *)
Definition name_ch (c : ascii) : bool :=
  is_alnum c || Ascii.eqb c "_" || Ascii.eqb c ":" || Ascii.eqb c "-" || Ascii.eqb c ".".
Definition xml_name (s : str) : Prop :=
  match s with [] => False | c :: _ => is_alpha c = true /\ forallb name_ch s = true end.
(** Character data, section 2.4: no [<], no [&], no "]]>". *)
Definition plain_text_ch (c : ascii) : bool := xml_ch c && negb (Ascii.eqb c "<") && negb (Ascii.eqb c "&").
Definition char_data (s : str) : Prop :=
  forallb plain_text_ch s = true /\ ~ exists a b, s = a ++ lit "]]>" ++ b.
(** Attribute values, section 3.1, between double quotes; white space is normalised to blanks, 3.3.3. *)
Definition attr_ch (c : ascii) : bool := plain_text_ch c && negb (Ascii.eqb c """").
Definition normalised (s : str) : str := map (fun c => if blank_ch c then " "%char else c) s.

(** The attributes of a tag. *)
Inductive attrs_text : list (str * str) -> str -> Prop :=
| at_nil : attrs_text [] []
| at_cons w n raw l t :
    w <> [] -> blank w -> xml_name n -> forallb attr_ch raw = true -> ~ In n (map fst l) -> attrs_text l t ->
    attrs_text ((n, normalised raw) :: l) (w ++ n ++ lit "=""" ++ raw ++ lit """" ++ t).

(** [spells x s]: [s] is an XML text of the element [x]; [content l s]: [s] is a text of the elements
    [l] with white space around them. *)
Inductive spells : xml -> str -> Prop :=
| sp_leaf tag attrs a text :
    xml_name tag -> attrs_text attrs a -> char_data text ->
    spells (Leaf tag attrs text) (lit "<" ++ tag ++ a ++ lit ">" ++ text ++ lit "</" ++ tag ++ lit ">")
| sp_node tag attrs a kids s :
    xml_name tag -> attrs_text attrs a -> content kids s ->
    spells (Node tag attrs kids) (lit "<" ++ tag ++ a ++ lit ">" ++ s ++ lit "</" ++ tag ++ lit ">")
| sp_empty tag attrs a :
    xml_name tag -> attrs_text attrs a ->
    spells (Node tag attrs []) (lit "<" ++ tag ++ a ++ lit "/>")
with content : list xml -> str -> Prop :=
| ct_nil w : blank w -> content [] w
| ct_cons w x s l t : blank w -> spells x s -> content l t -> content (x :: l) (w ++ s ++ t).

(** A document: the XML declaration and one element. *)
Inductive document : xml -> str -> Prop :=
| doc w x s w' : blank w -> spells x s -> blank w' ->
    document x (lit "<?xml version=""1.0"" encoding=""UTF-8""?>" ++ w ++ s ++ w').

(** The values of an attribute over all elements of a tree with a given tag. *)
Definition attr_of (n : string) (attrs : list (str * str)) : list str :=
  map snd (filter (fun a => str_eqb (fst a) (lit n)) attrs).
Fixpoint attr_values (tag n : string) (x : xml) : list str :=
  match x with
  | Leaf t attrs _ => if str_eqb t (lit tag) then attr_of n attrs else []
  | Node t attrs kids => (if str_eqb t (lit tag) then attr_of n attrs else []) ++ flat_map (attr_values tag n) kids
  end.
