(** Text blocks: recognised with whatever follows them. *)
From Verif.Model Require Import SmithyGrammar Values.
From Verif.Spec Require Import SmithySpec LayoutSpec.
From Verif.Proofs Require Import BaseFacts PegFacts SmithyGrammarFacts LayoutFacts.
From Verif.Proofs Require SelectorGrammarFacts.
From Coq Require Import Lia.

Lemma block_hex c r : hex c = true -> block_body (c :: r) -> block_body r.
Proof.
  intros H T. inversion T as [|s N T'|c' s I T'|s n s' D A B C T'|s n s' D A T']; subst; try discriminate H.
  - assumption.
  - assert (s' = r); [|subst; assumption]. clear -H D. all_chars c; try discriminate H; cbv in D; congruence.
Qed.
Definition block_chars : pexp irule :=
  PAlts ([PSeq (PNot (PStr [ascii_of_N 34; ascii_of_N 34; ascii_of_N 34])) (icall I_DQUOTE); icall I_sp; NEWLINE]
         ++ plain_chars ++ [icall I_escaped_char; icall I_preserved_double]).
Lemma not_three s r : (forall z, dquote :: s ++ three_quotes <> three_quotes ++ z) -> strip_prefix three_quotes (dquote :: s ++ three_quotes ++ r) = None.
Proof.
  intros N. unfold three_quotes in *. cbn [strip_prefix]. rewrite Ascii.eqb_refl.
  destruct s as [|a s]; [destruct (N [dquote] eq_refl)|]. cbn [app]. destruct (Ascii.eqb_spec dquote a) as [<-|]; [|reflexivity].
  destruct s as [|b s]; [destruct (N [dquote; dquote] eq_refl)|]. cbn [app]. destruct (Ascii.eqb_spec dquote b) as [<-|]; [|reflexivity].
  destruct (N (s ++ [dquote; dquote; dquote]) eq_refl).
Qed.
Lemma block_step t r : block_body t -> t <> [] -> exists q, block_body q /\ length q < length t
  /\ ev true block_chars (t ++ three_quotes ++ r) (Some ([], q ++ three_quotes ++ r)).
Proof.
  intros T NE. destruct T as [|s N T|c s I T|s c s' D A B C T|s c s' D A T]; [congruence| | | |]; unfold block_chars; cbn [app].
  - exists s. split; [exact T|]. split; [cbn; lia|]. cbn [PAlts]. apply ev_alt1.
    refine (sq _ _ _ _ [] (dquote :: s ++ three_quotes ++ r) [] _ _ _); [|apply (ev_run _ 60); reflexivity].
    apply ev_not1, ev_str_fail, not_three, N.
  - destruct I as [<-|[<-|[<-|[]]]].
    + exists s. split; [exact T|]. split; [cbn; lia|]. cbn [PAlts]. apply ev_alt2; [apply (ev_run _ 60); reflexivity|]. apply ev_alt1, (ev_run _ 60). reflexivity.
    + exists s. split; [exact T|]. split; [cbn; lia|]. cbn [PAlts]. apply ev_alt2; [apply (ev_run _ 60); reflexivity|].
      apply ev_alt2; [apply (ev_run _ 60); reflexivity|]. apply ev_alt1, (ev_run _ 60). reflexivity.
    + assert (X : exists q, block_body q /\ length q <= length s /\ ev true NEWLINE (ascii_of_N 13 :: s ++ three_quotes ++ r) (Some ([], q ++ three_quotes ++ r))).
      { destruct s as [|a s]; [exists []; split; [constructor|]; split; [lia|]; apply (ev_run _ 60); reflexivity|].
        destruct (ascii_dec a (ascii_of_N 10)) as [-> |NA].
        - exists s. split; [|split; [cbn; lia|apply (ev_run _ 60); reflexivity]].
          inversion T as [|z N T'|c' z I T'|z n s' D A B C T'|z n s' D A T']; subst; [assumption|]. exfalso. cbv in D. injection D as <- _. lia.
        - exists (a :: s). split; [exact T|]. split; [lia|]. cbn [app]. clear -NA. apply (ev_run _ 60). all_chars a; try reflexivity; exfalso; apply NA; reflexivity. }
      destruct X as (q & Q & L & X). exists q. split; [exact Q|]. split; [cbn; lia|]. cbn [PAlts]. apply ev_alt2; [apply (ev_run _ 60); reflexivity|].
      apply ev_alt2; [apply (ev_run _ 60); reflexivity|]. apply ev_alt1. exact X.
  - exists s'. split; [exact T|]. split; [exact (decode1_length _ _ _ D)|].
    assert (D' := SelectorGrammarFacts.decode1_app _ (three_quotes ++ r) _ _ D).
    destruct s as [|a s]; [discriminate D|]. cbn [app] in *. cbn [PAlts].
    apply ev_alt2. { apply ev_seq_fail2 with (ps := []) (s1 := a :: s ++ three_quotes ++ r).
      - apply ev_not1, ev_str_fail. cbn [strip_prefix]. destruct (Ascii.eqb_spec (ascii_of_N 34) a) as [<-|]; [|reflexivity]. exfalso. cbv in D. congruence.
      - rewrite skip_id. assert (a <> dquote) by (intros ->; cbv in D; congruence). clear -H. apply (ev_run _ 60). all_chars a; try reflexivity; exfalso; apply H; reflexivity. }
    destruct (ascii_dec a " ") as [-> |NS].
    { assert (s' = s) as -> by (cbv in D; congruence). apply ev_alt1, (ev_run _ 60). reflexivity. }
    assert (NC : a <> ascii_of_N 9 /\ a <> ascii_of_N 10 /\ a <> ascii_of_N 13) by (repeat split; intros ->; cbv in D; injection D as <- _; lia).
    apply ev_alt2; [clear -NS NC; destruct NC as (N9 & N10 & N13); apply (ev_run _ 60); all_chars a; try reflexivity; exfalso; (apply NS; reflexivity) || (apply N9; reflexivity)|].
    apply ev_alt2; [clear -NC; destruct NC as (N9 & N10 & N13); apply (ev_run _ 60); all_chars a; try reflexivity; exfalso; (apply N10; reflexivity) || (apply N13; reflexivity)|].
    exact (ev_plain_char _ _ _ D' (proj1 A) B C (proj2 A) _).
  - destruct (ev_escape_step block_body (three_quotes ++ r) block_hex (ev_no_hex true dquote _ eq_refl) s c s' D A T) as (q & Q & L & X).
    exists q. split; [exact Q|]. split; [exact L|]. cbn [app PAlts] in *.
    apply ev_alt2; [apply (ev_run _ 60); reflexivity|]. apply ev_alt2; [apply (ev_run _ 60); reflexivity|]. apply ev_alt2; [apply (ev_run _ 60); reflexivity|].
    exact X.
Qed.
(** The text of a block: layout after the opening quotes does not belong to it. *)
Lemma ev_block at_ g t r : layout g -> block_body t -> head_ok (t ++ three_quotes ++ r) ->
  ev at_ (icall I_text_block) ((three_quotes ++ g ++ t ++ three_quotes) ++ r)
    (Some (seen Normal at_ I_text_block (three_quotes ++ g ++ t ++ three_quotes) (seen Atomic at_ I_block_quoted_chars t []), r)).
Proof.
  intros G T H. refine (ev_rule at_ I_text_block (three_quotes ++ g ++ t ++ three_quotes) _ r _). cbn [fst snd smithy_rule PSeqs sub_atomic].
  assert (L : forall n t, length t <= n -> block_body t -> ev true (snd (smithy_rule I_block_quoted_chars)) (t ++ three_quotes ++ r) (Some ([], three_quotes ++ r))).
  { clear T H. change (snd (smithy_rule I_block_quoted_chars)) with (PStar block_chars).
    assert (E : ev true (PStar block_chars) (three_quotes ++ r) (Some ([], three_quotes ++ r))).
    { apply ev_star_nil. unfold block_chars. cbn [app plain_chars PAlts]. apply ev_alt2; [apply ev_seq_fail1; exact (ev_not2 _ _ _ _ _ (ev_str _ _ _ _))|].
      apply (ev_run _ 60). reflexivity. }
    induction n as [|n IH]; intros u Z TT; (destruct u as [|c u]; [exact E|]); [cbn in Z; lia|].
    destruct (block_step _ r TT ltac:(discriminate)) as (q1 & T1 & Z1 & E1).
    exact (star_cons _ _ _ [] _ [] _ E1 (IH q1 ltac:(cbn in *; lia) T1)). }
  unfold three_quotes at 1. rewrite <- !app_assoc. cbn [app].
  assert (D : forall s, ev at_ (icall I_DQUOTE) (dquote :: s) (Some ([], s))) by (intros s; apply (ev_run _ 60); destruct at_; reflexivity).
  do 3 refine (sq _ _ _ _ [] _ _ _ (D _) _).
  refine (sq _ _ _ _ [] (t ++ three_quotes ++ r) _ _ _ _).
  { assert (X : ev (sub_atomic Silent at_) (snd (smithy_rule I_br)) (g ++ t ++ three_quotes ++ r) (Some ([], t ++ three_quotes ++ r))).
    { cbn [snd smithy_rule sub_atomic]. refine (sq _ _ _ _ [] (t ++ three_quotes ++ r) [] _ (ev_layout _ _ _ G H) _).
      apply ev_opt2. destruct t as [|a t]; apply (ev_run _ 60); destruct at_; reflexivity. }
    assert (Y := SelectorGrammarFacts.ev_call_any smithy_grammar at_ I_br Silent _ _ _ _ eq_refl X). destruct at_; exact Y. }
  refine (sq_end _ _ _ _ _ (three_quotes ++ r) _ _ _).
  { exact (ev_rule at_ I_block_quoted_chars t [] (three_quotes ++ r) (L _ t (le_n _) T)). }
  unfold three_quotes. cbn [app]. do 2 refine (sq _ _ _ _ [] _ _ _ (D _) _). apply D.
Qed.
Lemma after_layout_head t r : after_layout t -> head_ok (t ++ three_quotes ++ r).
Proof.
  intros [A B]. destruct t as [|c t]; [split; [reflexivity|discriminate]|]. split; [exact (A c t eq_refl)|].
  intros z E. destruct t as [|d t]; [discriminate E|]. injection E as -> -> <-. specialize (B _ eq_refl).
  destruct t; [discriminate B|exact B].
Qed.
