(** C69: only documents are read. *)
From Verif.Model Require Import SelectorParse SmithyParse.
From Verif.Spec Require Import IdlLanguageSpec Witness.
From Verif.Proofs Require Import BaseFacts PegFacts SmithyGrammarFacts IdlSound IdlBrackets.
From Verif.Props Require Import P12_Smithy.

Lemma refused_or_document (f64_parse : str -> Z) (H : Hasher) (t : str) :
  parse_model f64_parse t = Err (EDeserialization (lit "pest")) \/ idl_language t.
Proof.
  unfold parse_model, parse_rule. destruct (smithy_total false I_idl t (smithy_fuel t) (le_n _)) as [[[ps s']|] E]; rewrite E; [|left; reflexivity].
  right. apply run_yields in E. apply (reads_idl (length t)) in E as [_ E]; [exact E|reflexivity].
Qed.
(** What is not in the language of the IDL is refused with a syntax error, whatever it is. *)
Theorem C69_others_are_refused :
  forall (f64_parse : str -> Z) (H : Hasher) (t : str),
    ~ idl_language t -> parse_model f64_parse t = Err (EDeserialization (lit "pest")).
Proof. intros f H t N. destruct (refused_or_document f H t); [assumption|contradiction]. Qed.
Print Assumptions C69_others_are_refused.
(** So whatever is read, is refused for another reason or makes the reader panic is a document. *)
Theorem C69_only_documents :
  forall (f64_parse : str -> Z) (H : Hasher) (t : str),
    parse_model f64_parse t <> Err (EDeserialization (lit "pest")) -> idl_language t.
Proof. intros f H t N. destruct (refused_or_document f H t); [contradiction|assumption]. Qed.
Print Assumptions C69_only_documents.

(** ** Documents begin with layout, a control statement, a metadata statement or a namespace. *)
Lemma layout_starts w : layout w -> match w with [] => True | c :: _ => space_char c = true \/ c = "/"%char end.
Proof. intros [|c l C _|b e l _ _ _ _]; [exact I|left; exact C|right; reflexivity]. Qed.
Lemma many_starts (L : lang) (c : ascii) : (forall t, L t -> exists r, t = c :: r) -> forall t, many L t -> t = [] \/ exists r, t = c :: r.
Proof. intros H t [|a b A _]; [left; reflexivity|]. right. destruct (H _ A) as [r ->]. eexists. reflexivity. Qed.
Theorem C69_beginning :
  forall t, idl_language t ->
    match t with
    | [] => True
    | c :: _ => space_char c = true \/ In c ["/"; "$"; "m"; "n"]%char
    end.
Proof.
  intros t (w & r & W & (cs & r1 & C & (ms & r2 & M & (s & r3 & S & -> & ->) & ->) & ->) & ->).
  apply layout_starts in W. destruct w as [|c w]; [cbn [app]|destruct W as [W| ->]; [left; exact W|right; left; reflexivity]].
  apply (many_starts _ "$"%char) in C as [-> |[q ->]]; [cbn [app]|right; cbn; auto|intros u (a & b & -> & _ & ->); eexists; reflexivity].
  apply (many_starts _ "m"%char) in M as [-> |[q ->]]; [cbn [app]|right; cbn; auto|intros u (a & b & -> & _ & ->); eexists; reflexivity].
  rewrite app_nil_r. destruct S as [-> |(a & b & -> & _ & ->)]; [exact I|]. right. cbn. auto.
Qed.
Print Assumptions C69_beginning.

(** A document without texts and comments closes every bracket that it opens: others are refused. *)
Theorem C69_brackets :
  forall (f64_parse : str -> Z) (H : Hasher) (t : str),
    bare t -> ~ balanced t -> parse_model f64_parse t = Err (EDeserialization (lit "pest")).
Proof. intros f H t B N. apply C69_others_are_refused. intros L. apply N, (even_idl t L B). Qed.
Print Assumptions C69_brackets.

(** A document, with no layout where there need not be any. *)
Example C69_ex_document : idl_language (lit "namespace a @b(c:1)listD{member:E}").
Proof.
  assert (ID : forall c, is_alpha c = true -> short_identifier [c]) by (intros c C; exists c, []; split; [left; reflexivity|]; split; [exact C|constructor]).
  assert (Ref : forall c, is_alpha c = true -> shape_ref [c]).
  { intros c C. exists [c], []. split; [right; apply ID, C|]. split; [|reflexivity]. exists [], []. split; [left; reflexivity|]. split; reflexivity. }
  assert (Heading : heading []).
  { exists [], []. split; [constructor|]. split; [|reflexivity]. exists [], []. split; [constructor|]. split; [|reflexivity].
    exists [], []. split; [constructor|]. split; [|reflexivity]. exists [], []. split; [constructor|]. split; reflexivity. }
  assert (E : entry (lit "c:1")).
  { exists (lit "c"), (lit ":1"). split; [right; apply ID; reflexivity|]. split; [|reflexivity]. exists [], (lit ":1"). split; [constructor|]. split; [|reflexivity].
    exists (lit ":"), (lit "1"). split; [reflexivity|]. split; [|reflexivity]. exists [], (lit "1"). split; [constructor|]. split; [|reflexivity].
    exists (lit "1"), []. split; [|split; reflexivity]. apply node_number. exists [], (lit "1"). split; [left; reflexivity|]. split; [|reflexivity].
    exists (lit "1"), []. split; [right; exists "1"%char, []; split; [discriminate|]; split; [reflexivity|]; split; [constructor|reflexivity]|]. split; [|reflexivity].
    exists [], []. split; [left; reflexivity|]. split; [|reflexivity]. exists [], []. split; [left; reflexivity|]. split; reflexivity. }
  assert (T : trait (lit "@b(c:1)")).
  { exists (lit "@"), (lit "b(c:1)"). split; [reflexivity|]. split; [|reflexivity]. exists (lit "b"), (lit "(c:1)"). split; [apply Ref; reflexivity|]. split; [|reflexivity].
    exists (lit "(c:1)"), []. split; [right|split; reflexivity]. exists (lit "("), (lit "c:1)"). split; [reflexivity|]. split; [|reflexivity].
    exists [], (lit "c:1)"). split; [constructor|]. split; [|reflexivity]. exists (lit "c:1" ++ []), (lit ")"). split; [|split; [exists (lit ")"), []; repeat split|reflexivity]].
    constructor; [|constructor]. exists (lit "c:1"), []. split; [left; exact E|]. split; [|reflexivity]. exists [], []. split; [constructor|]. split; reflexivity. }
  assert (M : members (lit "{member:E}")).
  { exists (lit "{"), (lit "member:E}"). split; [reflexivity|]. split; [|reflexivity]. exists [], (lit "member:E}"). split; [constructor|]. split; [|reflexivity].
    exists (lit "member:E" ++ []), (lit "}"). split; [|split; [exists (lit "}"), []; repeat split|reflexivity]]. constructor; [|constructor].
    exists (lit "member:E"), []. split; [|split; [exists [], []; split; [constructor|split; reflexivity]|reflexivity]].
    exists [], (lit "member:E"). split; [exact Heading|]. split; [|reflexivity]. exists (lit "member"), (lit ":E"). split.
    { exists "m"%char, (lit "ember"). split; [left; reflexivity|]. split; [reflexivity|]. repeat (constructor; [left; reflexivity|]). constructor. }
    split; [|reflexivity]. exists [], (lit ":E"). split; [constructor|]. split; [|reflexivity]. exists (lit ":"), (lit "E"). split; [reflexivity|]. split; [|reflexivity].
    exists [], (lit "E"). split; [constructor|]. split; [|reflexivity]. exists (lit "E"), []. split; [apply Ref; reflexivity|]. split; reflexivity. }
  assert (Space : layout (lit " ")) by (constructor; [reflexivity|constructor]).
  exists [], (lit "namespace a @b(c:1)listD{member:E}"). split; [constructor|]. split; [|reflexivity].
  exists [], (lit "namespace a @b(c:1)listD{member:E}"). split; [constructor|]. split; [|reflexivity].
  exists [], (lit "namespace a @b(c:1)listD{member:E}"). split; [constructor|]. split; [|reflexivity].
  exists (lit "namespace a @b(c:1)listD{member:E}"), []. split; [right|split; reflexivity].
  exists (lit "namespace"), (lit " a @b(c:1)listD{member:E}"). split; [reflexivity|]. split; [|reflexivity].
  exists (lit " "), (lit "a @b(c:1)listD{member:E}"). split; [exact Space|]. split; [|reflexivity].
  exists (lit "a"), (lit " @b(c:1)listD{member:E}"). split; [exists [lit "a"]; split; [discriminate|]; split; [constructor; [apply ID; reflexivity|constructor]|reflexivity]|]. split; [|reflexivity].
  exists (lit " "), (lit "@b(c:1)listD{member:E}"). split; [exact Space|]. split; [|reflexivity].
  exists [], (lit "@b(c:1)listD{member:E}"). split; [constructor|]. split; [|reflexivity].
  exists (lit "@b(c:1)listD{member:E}" ++ []), []. split; [|split; reflexivity]. constructor; [|constructor].
  left. exists (lit "@b(c:1)"), (lit "listD{member:E}"). split.
  { exists [], (lit "@b(c:1)"). split; [constructor|]. split; [|reflexivity]. exists [], (lit "@b(c:1)"). split; [constructor|]. split; [|reflexivity].
    exists (lit "@b(c:1)" ++ []), []. split; [|split; [exists [], []; split; [constructor|split; reflexivity]|reflexivity]]. constructor; [|constructor].
    exists [], (lit "@b(c:1)"). split; [constructor|]. split; [|reflexivity]. exists (lit "@b(c:1)"), []. split; [exact T|]. split; reflexivity. }
  split; [|reflexivity]. exists (lit "listD{member:E}"), []. split; [|split; [exists [], []; split; [constructor|split; reflexivity]|reflexivity]].
  right; left. exists (lit "list"), (lit "D{member:E}"). split; [left; reflexivity|]. split; [|reflexivity].
  exists [], (lit "D{member:E}"). split; [constructor|]. split; [|reflexivity]. exists (lit "D"), (lit "{member:E}"). split; [apply ID; reflexivity|]. split; [|reflexivity].
  exists [], (lit "{member:E}"). split; [constructor|]. split; [|reflexivity]. exists (lit "{member:E}"), []. split; [exact M|]. split; reflexivity.
Qed.
(** A shape in front of the namespace; a structure that is not closed. *)
Example C69_ex_refused : ~ idl_language (lit "structure A {} namespace a").
Proof. intros L. apply C69_beginning in L. destruct L as [L|L]; [discriminate L|]. repeat (destruct L as [L|L]; [discriminate L|]). exact L. Qed.
Example C69_ex_not_closed : bare (lit "namespace a structure A { b: B") /\ ~ balanced (lit "namespace a structure A { b: B").
Proof.
  split; [|intros (B & _); discriminate B].
  split; intros I; repeat (destruct I as [I|I]; [discriminate I|]); exact I.
Qed.
