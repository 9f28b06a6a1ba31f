(** Layout does not matter: the grammar of the Smithy IDL does the same on two documents with the same tokens. *)
From Verif.Model Require Import SmithyGrammar Values.
From Verif.Spec Require Import SmithySpec LayoutSpec.
From Verif.Proofs Require Import BaseFacts PegFacts SmithyGrammarFacts.
From Verif.Proofs Require SelectorGrammarFacts.

(** ** Layout *)
(** Where layout ends. *)
Definition head_ok (s : str) : Prop :=
  match s with [] => True | c :: _ => space_char c = false /\ (forall r, s = lit "//" ++ r -> hd_error r = Some "/"%char) end.
Lemma layout_head w : layout w -> match w with [] => True | c :: _ => space_char c = true \/ c = "/"%char end.
Proof. intros []; auto. Qed.
Lemma layout_lf w : layout (ascii_of_N 10 :: w) -> layout w.
Proof. inversion 1; subst; assumption. Qed.
Lemma ev_newline at_ e w s : e = ascii_of_N 10 \/ e = ascii_of_N 13 -> layout w -> head_ok s ->
  exists w1, layout w1 /\ length w1 <= length w /\ ev at_ NEWLINE (e :: w ++ s) (Some ([], w1 ++ s)).
Proof.
  intros E W H. destruct E as [-> | ->]; [exists w; repeat split; [assumption|lia|apply ev_alt1; ev_compute]|].
  destruct w as [|c w].
  - exists []. repeat split; [constructor|lia|]. cbn [app]. destruct s as [|c s]; [ev_compute|]. destruct H as [H _].
    apply (ev_run _ 60). clear -H. all_chars c; try discriminate H; reflexivity.
  - destruct (ascii_dec c (ascii_of_N 10)) as [-> |N].
    + exists w. repeat split; [exact (layout_lf _ W)|cbn; lia|ev_compute].
    + exists (c :: w). repeat split; [assumption|lia|]. cbn [app]. apply (ev_run _ 60). clear -N. all_chars c; try reflexivity. exfalso. apply N. reflexivity.
Qed.
Lemma ev_comment at_ b r : comment_text b -> (forall c, hd_error r = Some c -> (ch_N c < 32)%N /\ ch_N c <> 9%N) ->
  ev at_ (PStar comment_char) (b ++ r) (Some ([], r)).
Proof.
  intros B N. induction B as [|s c s' D C B IH]; cbn [app].
  - apply ev_star_nil. destruct r as [|c r]; [ev_compute|]. destruct (N c eq_refl) as [A X]. clear -A X.
    apply (ev_run _ 60). all_chars c; try reflexivity; cbv in A; try discriminate A; exfalso; apply X; reflexivity.
  - refine (star_cons _ _ _ [] (s' ++ r) [] r _ IH).
    assert (D' := SelectorGrammarFacts.decode1_app s r c s' D). unfold comment_char.
    destruct C as [-> |C].
    + apply ev_alt1. destruct s as [|a s]; [discriminate D|]. cbn [app] in D'.
      assert (a = ascii_of_N 9 /\ s = s') as [-> ->].
      { clear -D. unfold decode1 in D. destruct (ch_N a <? 128)%N eqn:L.
        - injection D as A ->. split; [|reflexivity]. all_chars a; try discriminate A; reflexivity.
        - exfalso. destruct (ch_N a <? 192)%N; [discriminate|]. unfold at_least in D.
          repeat match type of D with context [match ?x with _ => _ end] => destruct x eqn:?; try discriminate D end;
          injection D as D _; subst;
          match goal with H : (_ <=? _)%N = true |- _ => rewrite D in H; discriminate H end. }
      ev_compute.
    + apply ev_alt2; [|exact (ev_range _ _ _ _ _ _ _ D' C)].
      destruct s as [|a s]; [discriminate D|]. cbn [app] in *. apply ev_str_fail. cbn [strip_prefix].
      destruct (Ascii.eqb_spec (ascii_of_N 9) a) as [<- |]; [|reflexivity]. cbv in D. injection D as <- _. lia.
Qed.
Lemma ev_layout_step at_ w s : layout w -> head_ok s -> w <> [] -> exists w1, layout w1 /\ length w1 < length w /\
  ev at_ (PAlts [icall I_sp; NEWLINE; PAlt (PSeq (PNot (itok "///")) (icall I_line_comment)) (itok ",")]) (w ++ s) (Some ([], w1 ++ s)).
Proof.
  intros W H NE. destruct W as [|c w C W|b e w B NB E W]; [congruence| |].
  - cbn [PAlts].
    destruct (ascii_dec c (ascii_of_N 10)) as [-> |N1]; [|destruct (ascii_dec c (ascii_of_N 13)) as [-> |N2]].
    1: destruct (ev_newline at_ _ w s (or_introl eq_refl) W H) as (w1 & L1 & Z & E1); exists w1.
    2: destruct (ev_newline at_ _ w s (or_intror eq_refl) W H) as (w1 & L1 & Z & E1); exists w1.
    1,2: (repeat split; [exact L1|cbn; lia|]); cbn [app]; apply ev_alt2; [apply (ev_run _ 60); destruct at_; reflexivity|apply ev_alt1; exact E1].
    exists w. repeat split; [exact W|cbn; lia|]. cbn [app]. clear -C N1 N2. apply (ev_run _ 60).
    destruct at_; all_chars c; try discriminate C; try reflexivity; first [exfalso; apply N1; reflexivity|exfalso; apply N2; reflexivity].
  - destruct (ev_newline at_ e w s E W H) as (w1 & L1 & Z & E1). exists w1. repeat split; [exact L1|cbn [length]; rewrite app_length; cbn [length]; lia|].
    cbn [app PAlts]. rewrite <- app_assoc. cbn [app].
    apply ev_alt2; [apply (ev_run _ 60); destruct at_; reflexivity|].
    apply ev_alt2; [apply (ev_run _ 60); destruct at_; reflexivity|]. apply ev_alt1.
    refine (sq _ _ _ _ [] _ [] _ (ev_not1 _ _ _ _ _) _).
    + apply ev_str_fail. match goal with |- strip_prefix _ (_ :: _ :: ?x) = _ => change (strip_prefix ["/"%char] x = None) end.
      destruct b as [|x b]; cbn [app strip_prefix].
      * destruct E as [-> | ->]; reflexivity.
      * destruct (Ascii.eqb_spec "/" x) as [<- |]; [exfalso; apply NB; reflexivity|reflexivity].
    + assert (Q : ev at_ (icall I_line_comment) (("/"%char :: "/"%char :: b) ++ e :: w ++ s) (Some ([], w1 ++ s))).
      2: exact Q.
      assert (P : ev (sub_atomic Silent at_) (snd (smithy_rule I_line_comment)) (("/"%char :: "/"%char :: b) ++ e :: w ++ s) (Some ([], w1 ++ s))).
      { cbn [snd smithy_rule PSeqs sub_atomic app]. refine (sq_tok _ (lit "//") _ _ _ _ _).
        refine (sq _ _ _ _ [] (e :: w ++ s) [] _ (ev_comment _ b _ B _) E1).
        intros c Ec. injection Ec as <-. destruct E as [-> | ->]; split; cbv; congruence. }
      assert (X := SelectorGrammarFacts.ev_call_any smithy_grammar at_ I_line_comment Silent _ _ _ _ eq_refl P).
      destruct at_; exact X.
Qed.
Lemma ev_layout at_ w s : layout w -> head_ok s -> ev at_ iws (w ++ s) (Some ([], s)).
Proof.
  intros W H.
  assert (L : forall n w, length w <= n -> layout w -> ev at_ (snd (smithy_rule I_ws)) (w ++ s) (Some ([], s))).
  { clear w W. cbn [snd smithy_rule].
    assert (N : ev at_ (PStar (PAlts [icall I_sp; NEWLINE; PAlt (PSeq (PNot (itok "///")) (icall I_line_comment)) (itok ",")])) s (Some ([], s))).
    { apply ev_star_nil. destruct s as [|c s]; [apply (ev_run _ 60); destruct at_; reflexivity|]. destruct H as [A B].
      destruct (ascii_dec c "/") as [-> |N].
      - destruct s as [|a s]; [apply (ev_run _ 60); destruct at_; reflexivity|]. destruct (ascii_dec a "/") as [-> |NA].
        + specialize (B s eq_refl). destruct s as [|b s]; [discriminate B|]. injection B as ->.
          cbn [PAlts app]. apply ev_alt2; [apply (ev_run _ 60); destruct at_; reflexivity|].
          apply ev_alt2; [ev_compute|]. apply ev_alt2; [|ev_compute]. apply ev_seq_fail1.
          exact (ev_not2 _ _ _ _ _ (ev_str _ _ (lit "///") s)).
        + apply (ev_run _ 60). clear -NA. destruct at_; all_chars a; try reflexivity; exfalso; apply NA; reflexivity.
      - apply (ev_run _ 60). clear -A N. destruct at_; all_chars c; try discriminate A; try reflexivity; exfalso; apply N; reflexivity. }
    induction n as [|n IH]; intros w Z W.
    - destruct w; [|cbn in Z; lia]. exact N.
    - destruct w as [|c w]; [exact N|].
      destruct (ev_layout_step at_ _ s W H ltac:(discriminate)) as (w1 & L1 & Z1 & E1).
      exact (star_cons _ _ _ [] _ [] _ E1 (IH w1 ltac:(cbn in *; lia) L1)). }
  assert (Q := ev_rule at_ I_ws w [] s). cbn [fst smithy_rule sub_atomic] in Q.
  specialize (Q (L _ w (le_n _) W)). destruct at_; exact Q.
Qed.

(** ** Quoted texts *)
Definition hex (c : ascii) : bool :=
  existsb (Ascii.eqb c) (lit "0123456789abcdefABCDEF").
Lemma ev_hex at_ c s : hex c = true -> ev at_ ASCII_HEX_DIGIT (c :: s) (Some ([], s)).
Proof. intros H. apply (ev_run _ 60). all_chars c; try discriminate H; reflexivity. Qed.
Lemma ev_no_hex at_ c s : hex c = false -> ev at_ ASCII_HEX_DIGIT (c :: s) None.
Proof.
  intros H. cbn [ASCII_HEX_DIGIT PAlts].
  assert (X : forall lo hi, In (lo, hi) [(48, 57); (97, 102); (65, 70)]%N -> ev at_ (PRange lo hi) (c :: s) None).
  { intros lo hi I. apply ev_range_fail. intros n s' D. destruct (N.ltb_spec n lo); [auto|]. destruct (N.ltb_spec hi n); [auto|]. exfalso.
    assert (n < 128)%N by (cbn in I; destruct I as [E|[E|[E|[]]]]; injection E as <- <-; lia).
    assert (n = ch_N c).
    { unfold decode1 in D. destruct (ch_N c <? 128)%N; [congruence|]. exfalso. destruct (ch_N c <? 192)%N; [discriminate|]. unfold at_least in D.
      repeat match type of D with context [match ?x with _ => _ end] => destruct x eqn:?; try discriminate D end;
      injection D as D _; subst; match goal with H : (_ <=? _)%N = true |- _ => apply N.leb_le in H; lia end. }
    subst n. clear D. cbn in I. destruct I as [E|[E|[E|[]]]]; injection E as <- <-; clear H2;
      all_chars c; try discriminate H; first [apply H0; reflexivity|apply H1; reflexivity]. }
  apply ev_alt2; [apply X; cbn; auto|]. apply ev_alt2; apply X; cbn; auto.
Qed.
Lemma text_hex c r : hex c = true -> text_body (c :: r) -> text_body r.
Proof.
  intros H T. inversion T as [|s n s' D A B C T'|s n s' D A T']; subst.
  - assert (s' = r); [|subst; assumption]. clear -H D. all_chars c; try discriminate H; cbv in D; congruence.
  - exfalso. discriminate H.
Qed.
(** Escapes, in a kind of text that stays of its kind when a hexadecimal digit is taken off its front. *)
Section Escapes.
  Variables (B : str -> Prop) (R : str).
  Hypothesis B_hex : forall c r, hex c = true -> B (c :: r) -> B r.
  Hypothesis R_hex : ev true ASCII_HEX_DIGIT R None.
Lemma hex_step s : B s ->
  ev true ASCII_HEX_DIGIT (s ++ R) None
  \/ exists q1, B q1 /\ length q1 <= length s /\ ev true ASCII_HEX_DIGIT (s ++ R) (Some ([], q1 ++ R)).
Proof.
  intros T. destruct s as [|c s]; [left; exact R_hex|]. destruct (hex c) eqn:H; cbn [app].
  - right. exists s. repeat split; [exact (B_hex _ _ H T)|cbn; lia|apply ev_hex; exact H].
  - left. apply ev_no_hex, H.
Qed.
Lemma ev_escape_step s c s' : decode1 s = Some (c, s') -> (32 <= c <= 69631)%N -> B s' -> exists q1, B q1 /\ length q1 < length (ascii_of_N 92 :: s) /\
  ev true (PAlts (plain_chars ++ [icall I_escaped_char; icall I_preserved_double])) ((ascii_of_N 92 :: s) ++ R) (Some ([], q1 ++ R)).
Proof.
  intros D A T.
  assert (Z := decode1_length _ _ _ D).
    assert (D' := SelectorGrammarFacts.decode1_app _ (R) _ _ D).
    cbn [app plain_chars PAlts].
    (* preserved: the character after the backslash stands for itself *)
    assert (P : c <> 34%N -> c <> 92%N -> ev true (icall I_escaped_char) (ascii_of_N 92 :: s ++ R) None ->
      exists q1, B q1 /\ length q1 < length (ascii_of_N 92 :: s) /\
       ev true (PAlt (PRange 32 33) (PAlt (PRange 35 91) (PAlt (PRange 93 69631) (PAlt (icall I_escaped_char) (icall I_preserved_double)))))
        (ascii_of_N 92 :: s ++ R) (Some ([], q1 ++ R))).
    { intros N1 N2 F. exists s'. repeat split; [assumption|cbn; lia|].
      do 3 (apply ev_alt2; [ev_compute|]). apply ev_alt2; [exact F|].
      assert (X : ev true (snd (smithy_rule I_preserved_double)) (ascii_of_N 92 :: s ++ R) (Some ([], s' ++ R))).
      { cbn [snd smithy_rule]. refine (sq _ _ _ _ [] (s ++ R) [] _ _ _); [ev_compute|].
        exact (ev_plain_char _ _ _ D' (proj1 A) N1 N2 (proj2 A) []). }
      exact (SelectorGrammarFacts.ev_call_any smithy_grammar true I_preserved_double Normal _ _ _ _ eq_refl X). }
    assert (Q : forall q1, B q1 -> length q1 < length (ascii_of_N 92 :: s) ->
      ev true (PAlts [icall I_escape; itok "'"; icall I_DQUOTE; itok "b"; itok "f"; itok "n"; itok "r"; itok "t"; itok "/"; icall I_unicode_escape])
        (s ++ R) (Some ([], q1 ++ R)) ->
      exists q1, B q1 /\ length q1 < length (ascii_of_N 92 :: s) /\
       ev true (PAlt (PRange 32 33) (PAlt (PRange 35 91) (PAlt (PRange 93 69631) (PAlt (icall I_escaped_char) (icall I_preserved_double)))))
        (ascii_of_N 92 :: s ++ R) (Some ([], q1 ++ R))).
    { intros q1 T1 Z1 E1. exists q1. repeat split; [assumption|assumption|].
      do 3 (apply ev_alt2; [ev_compute|]). apply ev_alt1.
      assert (X : ev true (snd (smithy_rule I_escaped_char)) (ascii_of_N 92 :: s ++ R) (Some ([], q1 ++ R))).
      { cbn [snd smithy_rule]. refine (sq _ _ _ _ [] (s ++ R) [] _ _ E1). ev_compute. }
      exact (SelectorGrammarFacts.ev_call_any smithy_grammar true I_escaped_char Normal _ _ _ _ eq_refl X). }
    assert (F : ev true (PAlts [icall I_escape; itok "'"; icall I_DQUOTE; itok "b"; itok "f"; itok "n"; itok "r"; itok "t"; itok "/"; icall I_unicode_escape])
        (s ++ R) None -> ev true (icall I_escaped_char) (ascii_of_N 92 :: s ++ R) None).
    { intros E1. apply ev_rule_fail. cbn [snd smithy_rule]. refine (sq_fail _ _ _ _ [] (s ++ R) _ E1). ev_compute. }
    destruct s as [|a s]; [discriminate D|]. cbn [app] in *.
    destruct (existsb (Ascii.eqb a) ["\"; "'"; dquote; "b"; "f"; "n"; "r"; "t"; "/"]%char) eqn:SI.
    { assert (s = s') as <- by (clear -D SI; all_chars a; try discriminate SI; cbv in D; congruence).
      apply (Q s T); [cbn; lia|]. clear -SI. apply (ev_run _ 60). all_chars a; try discriminate SI; reflexivity. }
    assert (NA : c <> 34%N /\ c <> 92%N).
    { clear -D SI A. destruct (ch_N a <? 128)%N eqn:L.
      - unfold decode1 in D. rewrite L in D. injection D as <- _. all_chars a; try discriminate SI; split; discriminate.
      - unfold decode1 in D. rewrite L in D. destruct (ch_N a <? 192)%N; [discriminate|]. unfold at_least in D.
        repeat match type of D with context [match ?x with _ => _ end] => destruct x eqn:?; try discriminate D end;
        injection D as D _; subst; match goal with H : (_ <=? _)%N = true |- _ => apply N.leb_le in H; lia end. }
    destruct (ascii_dec a "u") as [-> |NU].
    2: { apply P; try apply NA. apply F. clear -SI NU. apply (ev_run _ 60). all_chars a; try discriminate SI; try reflexivity; exfalso; apply NU; reflexivity. }
    assert (s = s') as <- by (cbv in D; congruence).
    assert (U0 : forall r, ev true (PSeqs [ASCII_HEX_DIGIT; ASCII_HEX_DIGIT; ASCII_HEX_DIGIT; ASCII_HEX_DIGIT]) (s ++ R) r ->
      ev true (PAlts [icall I_escape; itok "'"; icall I_DQUOTE; itok "b"; itok "f"; itok "n"; itok "r"; itok "t"; itok "/"; icall I_unicode_escape])
        ("u"%char :: s ++ R) (match r with Some (_, z) => Some ([], z) | None => None end)).
    { intros r [f Y]. do 9 (apply ev_alt2; [ev_compute|]). cbn [PAlts].
      assert (X : ev true (snd (smithy_rule I_unicode_escape)) ("u"%char :: s ++ R) r).
      { cbn [snd smithy_rule]. destruct r as [[ps z]|].
        - refine (sq_tok _ (lit "u") _ _ _ _ _). exists f. exact Y.
        - refine (sq_fail _ _ _ _ [] (s ++ R) _ _); [ev_compute|exists f; exact Y]. }
      destruct r as [[ps z]|]; [|apply ev_rule_fail; exact X].
      exact (SelectorGrammarFacts.ev_call_any smithy_grammar true I_unicode_escape Normal _ _ _ _ eq_refl X). }
    assert (FL : ev true (PSeqs [ASCII_HEX_DIGIT; ASCII_HEX_DIGIT; ASCII_HEX_DIGIT; ASCII_HEX_DIGIT]) (s ++ R) None ->
      exists q1, B q1 /\ length q1 < length (ascii_of_N 92 :: "u"%char :: s) /\
       ev true (PAlt (PRange 32 33) (PAlt (PRange 35 91) (PAlt (PRange 93 69631) (PAlt (icall I_escaped_char) (icall I_preserved_double)))))
        (ascii_of_N 92 :: "u"%char :: s ++ R) (Some ([], q1 ++ R))).
    { intros X. apply P; try apply NA. apply F. exact (U0 _ X). }
    destruct (hex_step s T) as [N1|(q1 & T1 & Z1 & E1)]; [apply FL, ev_seq_fail1, N1|].
    destruct (hex_step q1 T1) as [N2|(q2 & T2 & Z2 & E2)]; [apply FL; exact (sq_fail _ _ _ _ _ _ E1 (ev_seq_fail1 _ _ _ _ _ N2))|].
    destruct (hex_step q2 T2) as [N3|(q3 & T3 & Z3 & E3)];
      [apply FL; exact (sq_fail _ _ _ _ _ _ E1 (sq_fail _ _ _ _ _ _ E2 (ev_seq_fail1 _ _ _ _ _ N3)))|].
    destruct (hex_step q3 T3) as [N4|(q4 & T4 & Z4 & E4)];
      [apply FL; exact (sq_fail _ _ _ _ _ _ E1 (sq_fail _ _ _ _ _ _ E2 (sq_fail _ _ _ _ _ _ E3 N4)))|].
    apply (Q q4 T4); [cbn; lia|].
    exact (U0 _ (sq _ _ _ _ _ _ _ _ E1 (sq _ _ _ _ _ _ _ _ E2 (sq _ _ _ _ _ _ _ _ E3 E4)))).
Qed.
End Escapes.
Lemma text_no_quote c r : text_body (c :: r) -> c <> dquote.
Proof. intros T E. inversion T as [|s n s' D A B C T'|s n s' D A T']; subst; [cbv in D; congruence|discriminate]. Qed.
Lemma ev_text_step q rest : text_body q -> q <> [] -> exists q1, text_body q1 /\ length q1 < length q /\
  ev true (PAlts (plain_chars ++ [icall I_escaped_char; icall I_preserved_double])) (q ++ dquote :: rest) (Some ([], q1 ++ dquote :: rest)).
Proof.
  intros T NE. destruct T as [|s c s' D A B C T|s c s' D A T]; [congruence| |].
  - exists s'. repeat split; [assumption|exact (decode1_length _ _ _ D)|].
    exact (ev_plain_char _ _ _ (SelectorGrammarFacts.decode1_app _ _ _ _ D) (proj1 A) B C (proj2 A) _).
  - apply (ev_escape_step text_body (dquote :: rest) text_hex (ev_no_hex true dquote rest eq_refl) s c s'); assumption.
Qed.
Lemma ev_text at_ q rest : text_body q ->
  ev at_ (icall I_quoted_text) (quoted q ++ rest) (Some (seen Normal at_ I_quoted_text (quoted q) (seen Atomic at_ I_quoted_chars q []), rest)).
Proof.
  intros T. refine (ev_rule at_ I_quoted_text (quoted q) _ rest _). cbn [fst snd smithy_rule PSeqs sub_atomic].
  assert (L : forall n t, length t <= n -> text_body t -> ev true (snd (smithy_rule I_quoted_chars)) (t ++ dquote :: rest) (Some ([], dquote :: rest))).
  { cbn [snd smithy_rule].
    assert (E : ev true (PStar (PAlts (plain_chars ++ [icall I_escaped_char; icall I_preserved_double]))) (dquote :: rest) (Some ([], dquote :: rest)))
      by (apply ev_star_nil; ev_compute).
    induction n as [|n IH]; intros t Z TT; (destruct t as [|c t]; [exact E|]); [cbn in Z; lia|].
    destruct (ev_text_step _ rest TT ltac:(discriminate)) as (q1 & T1 & Z1 & E1).
    exact (star_cons _ _ _ [] _ [] _ E1 (IH q1 ltac:(cbn in *; lia) T1)). }
  unfold quoted. cbn [app]. rewrite <- app_assoc. cbn [app].
  refine (sq _ _ _ _ [] (q ++ dquote :: rest) _ rest _ _); [apply (ev_run _ 60); destruct at_; reflexivity|].
  refine (sq_end _ _ _ _ _ (dquote :: rest) rest _ _); [|apply (ev_run _ 60); destruct at_; reflexivity].
  exact (ev_rule at_ I_quoted_chars q [] (dquote :: rest) (L _ q (le_n _) T)).
Qed.
Lemma ev_block_fails at_ q rest : text_body q -> hd_error rest <> Some dquote -> ev at_ (icall I_text_block) (quoted q ++ rest) None.
Proof.
  intros T N. apply ev_rule_fail. cbn [fst snd smithy_rule sub_atomic].
  unfold quoted. cbn [app]. rewrite <- app_assoc. cbn [app].
  assert (D : forall s, ev at_ (icall I_DQUOTE) (dquote :: s) (Some ([], s))) by (intros s; apply (ev_run _ 60); destruct at_; reflexivity).
  assert (X : forall s, hd_error s <> Some dquote -> ev at_ (icall I_DQUOTE) s None).
  { intros [|c s] E; apply (ev_run _ 60); [destruct at_; reflexivity|]. assert (c <> dquote) by (intros ->; apply E; reflexivity). clear -H.
    destruct at_; all_chars c; try reflexivity; exfalso; apply H; reflexivity. }
  refine (sq_fail _ _ _ _ [] _ (D _) _). destruct q as [|c q]; cbn [app].
  - refine (sq_fail _ _ _ _ [] _ (D _) _). apply ev_seq_fail1, X, N.
  - apply ev_seq_fail1, X. cbn. intros E. injection E as E. exact (text_no_quote _ _ T E).
Qed.
Lemma ev_block_other at_ s : hd_error s <> Some dquote -> ev at_ (icall I_text_block) s None.
Proof.
  intros E. apply ev_rule_fail. cbn [fst snd smithy_rule sub_atomic]. apply ev_seq_fail1. destruct s as [|c s]; apply (ev_run _ 60); [destruct at_; reflexivity|].
  assert (c <> dquote) by (intros ->; apply E; reflexivity). clear -H. destruct at_; all_chars c; try reflexivity; exfalso; apply H; reflexivity.
Qed.
Lemma ev_text_other at_ s : hd_error s <> Some dquote -> ev at_ (icall I_quoted_text) s None.
Proof.
  intros E. apply ev_rule_fail. cbn [fst snd smithy_rule sub_atomic]. apply ev_seq_fail1. destruct s as [|c s]; apply (ev_run _ 60); [destruct at_; reflexivity|].
  assert (c <> dquote) by (intros ->; apply E; reflexivity). clear -H. destruct at_; all_chars c; try reflexivity; exfalso; apply H; reflexivity.
Qed.
