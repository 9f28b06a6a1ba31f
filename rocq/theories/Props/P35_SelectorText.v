(** C70: a selector is read from a text if and only if the text says it. What a text says is defined by
    [Spec/SelectorTextSpec.v]. [f64_parse] stands for [FromStr] of [f64]. *)
From Verif.Model Require Import SelectorParse.
From Verif.Spec Require Import IdentitySpec SelectorSpec SelectorTextSpec.
From Verif.Proofs Require Import SelectorFacts SelectorSound SelectorWhole SelectorLayout SelectorTextSound.

Theorem C70_reads_exactly f64_parse sel text :
  parse_selector f64_parse text = Ok sel <-> selector_text f64_parse sel text.
Proof. split; [apply selector_read_text|apply selector_text_read]. Qed.
Print Assumptions C70_reads_exactly.

(** A text says one selector at most. *)
Theorem C70_one_meaning f64_parse sel sel' text :
  selector_text f64_parse sel text -> selector_text f64_parse sel' text -> sel = sel'.
Proof. intros A B. apply selector_text_read in A, B. congruence. Qed.
Print Assumptions C70_one_meaning.

(** Its words and signs decide what it says, not the blanks between them. *)
Theorem C70_layout f64_parse sel tokens text text' :
  says_selector f64_parse sel tokens -> spaced tokens text -> spaced tokens text' ->
  parse_selector f64_parse text = Ok sel /\ parse_selector f64_parse text' = Ok sel.
Proof. intros S A B. split; apply selector_text_read; exists tokens; auto. Qed.
Print Assumptions C70_layout.

(** Blanks around a text do not matter. *)
Lemma spaced_after ts t b : Forall blank b -> spaced ts t -> spaced ts (t ++ b).
Proof.
  intros B H. induction H as [b' B'|b' t ts s B' H IH A]; [constructor; apply Forall_app; auto|].
  rewrite <- !app_assoc. constructor; [exact B'|exact IH|]. intros t' ts' E N. destruct (A _ _ E N) as (c & s' & -> & C). exists c, (s' ++ b). auto.
Qed.
Theorem C70_blanks_around f64_parse sel text before after :
  Forall blank before -> Forall blank after ->
  parse_selector f64_parse text = Ok sel -> parse_selector f64_parse (before ++ text ++ after) = Ok sel.
Proof.
  intros B A E. apply C70_reads_exactly in E as (ts & S & H). apply selector_text_read. exists ts. split; [exact S|].
  apply spaced_blanks, spaced_after; assumption.
Qed.
Print Assumptions C70_blanks_around.

(** Other texts are refused with an error, or make the reader panic, which they can do only if there is a
    number in them that is written without a decimal point and is no [i64]. *)
Theorem C70_others_refused f64_parse text :
  (forall sel, ~ selector_text f64_parse sel text) ->
  (exists e, parse_selector f64_parse text = Err e)
  \/ parse_selector f64_parse text = Panic /\ exists before w after, text = before ++ w ++ after /\ not_i64 w.
Proof.
  intros N. assert (G := parse_good f64_parse text). destruct (parse_selector f64_parse text) as [sel|e|] eqn:E.
  - destruct (N sel). apply C70_reads_exactly, E.
  - eauto.
  - right. split; [reflexivity|exact G].
Qed.
Print Assumptions C70_others_refused.

(** The displayed text of a selector is one of its texts. *)
Theorem C70_displayed f64_str f64_parse sel :
  printable f64_str f64_parse sel -> selector_text f64_parse sel (selector_display f64_str sel).
Proof. intros P. apply C70_reads_exactly, round_trip, P. Qed.
Print Assumptions C70_displayed.

(** ** Cases *)
Definition c70_sel : selector :=
  [XShapeType TyMap; XNeighbor NbReverse; XNeighbor (NbForwardDirected [lit "a"; lit "b"]);
   XAttribute (Attribute (Key "k" []) (Some (Comparison CmLess [SvText "x"; SvNumber (NInteger (-3))] true)))].
Definition c70_tokens : list str :=
  map lit ["map"; "<"; "-["; "a"; ","; "b"; "]->"; "["; "k"; "<"; "'x'"; ","; "-3"; "i"; "]"]%string.
Example C70_ex_says f64_parse : says_selector f64_parse c70_sel c70_tokens.
Proof.
  assert (NA : forall c, is_alpha c = true -> short_identifier [c]) by (intros c A; exists c, []; auto).
  apply (say_next _ _ _ [lit "map"]); [apply (say_type _ TyMap)|]. apply (say_next _ _ _ [lit "<"]); [apply say_neighbor, say_reverse|].
  apply (say_next _ _ _ (map lit ["-["; "a"; ","; "b"; "]->"]%string)).
  - apply say_neighbor. apply (say_forward_directed _ (map lit ["a"; ","; "b"]%string)).
    apply (listed_more _ _ _ _ [lit "a"] [lit "b"]); [split; [apply NA; reflexivity|reflexivity]|].
    apply listed_one. split; [apply NA; reflexivity|reflexivity].
  - apply say_last. apply say_attribute.
    apply (say_compared _ (Key "k" []) [lit "k"] CmLess (lit "<") _ (map lit ["'x'"; ","; "-3"]%string) true).
    + apply say_id, NA. reflexivity.
    + constructor.
    + apply (listed_more _ _ _ _ [lit "'x'"] [lit "-3"]).
      * eexists. split; [|reflexivity]. apply (tok_single _ (lit "x")); [discriminate|].
        apply (quotable_cons 39 (lit "x") 120%N []); [reflexivity|discriminate..|constructor].
      * apply listed_one. eexists. split; [|reflexivity]. apply (tok_negative _ _ (lit "3")); [|reflexivity|discriminate].
        right. exists "3"%char, []. repeat split. constructor.
Qed.
(** Three layouts of these tokens, the last with no blank but the one that is needed. *)
Example C70_ex f64_parse :
  map (parse_selector f64_parse)
    [lit "map < -[ a , b ]-> [ k < 'x' , -3 i ] ";
     [ascii_of_N 10] ++ lit "map" ++ [ascii_of_N 9] ++ lit "<" ++ [ascii_of_N 10] ++ lit "-[a,b  ]->[k<'x',-3i]";
     lit "map< -[a,b]->[k<'x',-3i]"]
  = [Ok c70_sel; Ok c70_sel; Ok c70_sel].
Proof. vm_compute. reflexivity. Qed.
(** Without that one, it is another selector; without one between two words as well. *)
Example C70_ex_needed f64_parse :
  parse_selector f64_parse (lit "map<-[a,b]->")
    = Ok [XShapeType TyMap; XNeighbor (NbReverseDirected [lit "a"; lit "b"]); XNeighbor NbForward]
  /\ (exists e, parse_selector f64_parse (lit "mapset") = Err e)
  /\ ~ selector_text f64_parse [XShapeType TyMap; XShapeType TySet] (lit "mapset").
Proof.
  split; [vm_compute; reflexivity|]. assert (E : exists e, parse_selector f64_parse (lit "mapset") = Err e) by (eexists; vm_compute; reflexivity).
  split; [exact E|]. intros K. apply selector_text_read in K. destruct E as [e E]. congruence.
Qed.
