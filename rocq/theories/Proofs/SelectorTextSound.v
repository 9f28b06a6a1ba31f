(** What is read as a selector is a text of that selector. *)
From Verif.Model Require Import SelectorParse.
From Verif.Spec Require Import IdentitySpec SelectorSpec SelectorTextSpec.
From Verif.Proofs Require Import BaseFacts IdentityFacts PegFacts SelectorGrammarFacts SelectorFacts SelectorSound SelectorLayout.
From Verif.Proofs Require JsonFacts.

Notation y := (yields selector_grammar).

(** ** What a match leaves *)
Lemma y_star_end e s ps s' : y true (PStar e) s ps s' -> ev true e s' None.
Proof.
  intros Y. apply yields_star_more in Y. revert s ps s' Y.
  apply (yields_more_ind _ _ _ (fun _ _ s' => ev true e s' None)); [intros s E; exact E|]. intros; assumption.
Qed.
Lemma y_identifier_stop at_ s ps s' : y at_ (call S_identifier) s ps s' -> stop s'.
Proof.
  intros Y. apply ycall in Y as (qs & _ & Y). cbn [fst snd selector_rule sub_atomic PSeqs] in Y.
  apply yalt in Y as [Y|Y].
  - apply yseq in Y as (p1 & s1 & p2 & _ & _ & B). apply y_star_end in B. exact B.
  - apply yseq in Y as (p1 & s1 & p2 & _ & _ & B). apply yseq in B as (p3 & s3 & p4 & _ & _ & B). apply y_star_end in B. exact B.
Qed.
Lemma y_absolute_stop s ps s' : y false (call S_absolute_root_shape_id) s ps s' -> stop s'.
Proof.
  intros Y. apply ycall in Y as (qs & _ & Y). cbn [fst snd selector_rule sub_atomic PSeqs] in Y.
  apply yseq in Y as (p1 & s1 & p2 & _ & _ & B). apply yseq in B as (p3 & s3 & p4 & _ & _ & B). apply y_identifier_stop in B. exact B.
Qed.
Lemma stop_word c s : stop (c :: s) -> ~ name_part c.
Proof.
  intros S N. assert (K : exists r, ev true ident_char (c :: s) (Some r)).
  { unfold ident_char. cbn [PAlts]. destruct N as [A|[D| ->]].
    - exists ([], s). exists 10. all_chars c; try discriminate A; reflexivity.
    - exists ([], s). exists 10. all_chars c; try discriminate D; reflexivity.
    - exists ([], s). exists 10. reflexivity. }
  destruct K as [r K]. assert (Z := evals_fun _ _ _ _ _ _ S K). discriminate Z.
Qed.
Lemma y_text_token s ps s' : y false (call S_text) s ps s' ->
  exists q t i, ps = [Pair S_text (q :: t ++ [q]) i] /\ s = (q :: t ++ [q]) ++ s' /\ t <> []
    /\ (q = "'"%char /\ quotable 39 t \/ q = dquote /\ quotable 34 t).
Proof.
  intros Y. apply ycall in Y as (qs & -> & Y). cbn [fst snd selector_rule sub_atomic] in *.
  apply yalt in Y as [Y|Y]; apply ycall in Y as (us & -> & Y); cbn [fst snd selector_rule sub_atomic] in *.
  - apply (y_quoted 39 S_single_quoted_char) in Y as (t & NE & Q & ->); [|auto]. rewrite taken_whole. exists "'"%char, t. eexists.
    split; [reflexivity|]. split; [reflexivity|]. auto.
  - apply (y_quoted 34 S_double_quoted_char) in Y as (t & NE & Q & ->); [|auto]. rewrite taken_whole. exists dquote, t. eexists.
    split; [reflexivity|]. split; [reflexivity|]. auto.
Qed.

(** ** Laying out tokens *)
Lemma blanks_dropped s : exists b, Forall blank b /\ s = b ++ unblank s.
Proof.
  induction s as [|c s (b & B & E)]; [exists []; split; [constructor|reflexivity]|]. cbn [drop_space g_space selector_grammar].
  destruct (selector_space c) eqn:K; [|exists []; split; [constructor|reflexivity]].
  exists (c :: b). split; [constructor; [apply blank_space, K|exact B]|]. cbn [app]. rewrite <- E. reflexivity.
Qed.
Lemma spaced_blanks b ts s : Forall blank b -> spaced ts s -> spaced ts (b ++ s).
Proof.
  intros B H. destruct H as [b' B'|b' t ts s B' H A].
  - constructor. apply Forall_app. auto.
  - rewrite app_assoc. constructor; [apply Forall_app; auto|exact H|exact A].
Qed.
Lemma spaced_unskip ts s : spaced ts (unblank s) -> spaced ts s.
Proof. intros H. destruct (blanks_dropped s) as (b & B & E). rewrite E. apply spaced_blanks; assumption. Qed.
Lemma spaced_put t ts s : spaced ts s -> apart t ts s -> spaced (t :: ts) (t ++ s).
Proof. intros H A. apply (spaced_token [] t ts s); [constructor|exact H|exact A]. Qed.

Definition adds (F : list str -> Prop) (toks : list str) (s s' : str) : Prop :=
  forall ts, F ts -> spaced ts s' -> spaced (toks ++ ts) s.
Definition quiet (t : str) : Prop := forall t', ~ needs_blank t t'.
Lemma quiet_char c r : is_alpha c = false -> c <> "_"%char -> c <> "<"%char -> quiet (c :: r).
Proof.
  intros A U L t' [(d & u & d' & u' & E & [N|N] & _)|[E _]].
  - injection E as <- _. congruence.
  - injection E as <- _. congruence.
  - injection E as E _. congruence.
Qed.
Lemma quiet_shaft r : r <> [] -> quiet ("<"%char :: r).
Proof.
  intros NE t' [(d & u & d' & u' & E & [N|N] & _)|[E _]].
  - injection E as <- _. discriminate N.
  - injection E as <- _. discriminate N.
  - injection E as E. congruence.
Qed.
Lemma adds_quiet t s : quiet t -> adds any [t] (t ++ s) s.
Proof. intros Q ts _ H. apply spaced_put; [exact H|]. intros t' ts' _ N. destruct (Q _ N). Qed.
Lemma adds_name t s : (exists c r, t = c :: r /\ name_start c) -> stop s -> adds any [t] (t ++ s) s.
Proof.
  intros (c & r & -> & N) ST ts _ H. apply spaced_put; [exact H|]. intros t' ts' -> NB.
  destruct NB as [(d & u & d' & u' & E & _ & -> & P)|[E _]].
  - apply spaced_cons in H as (b & s' & B & -> & H & A). destruct b as [|x b].
    + destruct (stop_word _ _ ST P).
    + inversion B; subst. eexists. eexists. split; [reflexivity|assumption].
  - injection E as -> _. destruct N as [N|N]; discriminate N.
Qed.
Lemma adds_short n s : short_identifier n -> stop s -> adds any [n] (n ++ s) s.
Proof. intros S. apply adds_name, short_name_start, S. Qed.
Lemma adds_nil F s : adds F [] s s. Proof. intros ts _ H. exact H. Qed.
Lemma adds_skip F toks s s' : adds F toks (unblank s) s' -> adds F toks s s'.
Proof. intros A ts HF H. apply spaced_unskip, A; assumption. Qed.
Lemma adds_weaken (F F' : list str -> Prop) toks s s' : adds F toks s s' -> (forall ts, F' ts -> F ts) -> adds F' toks s s'.
Proof. intros A K ts HF H. apply A; auto. Qed.
Lemma adds_seq (F1 F2 F : list str -> Prop) t1 t2 s s1 s' : adds F1 t1 s s1 -> adds F2 t2 (unblank s1) s' ->
  (forall ts, F ts -> F1 (t2 ++ ts)) -> (forall ts, F ts -> F2 ts) -> adds F (t1 ++ t2) s s'.
Proof.
  intros A B K1 K2 ts HF H. rewrite <- app_assoc. apply A; [apply K1, HF|]. apply spaced_unskip, B; [apply K2, HF|exact H].
Qed.
Lemma adds_then t2 t1 (F2 F : list str -> Prop) s s1 s' : adds any t1 s s1 -> adds F2 t2 (unblank s1) s' ->
  (forall ts, F ts -> F2 ts) -> adds F (t1 ++ t2) s s'.
Proof. intros A B K. eapply adds_seq; [exact A|exact B|intros; exact I|exact K]. Qed.
Lemma star_more e s1 ps s' : y false (PStar e) (unblank s1) ps s' ->
  exists s'', y false (PMore e) s1 ps s'' /\ forall ts, spaced ts s' -> spaced ts s''.
Proof.
  intros Y. inversion Y as [| | | | | | | |a0 a1 a2 p1 s2 p2 s3 A B E1 E2 E3 E4|a0 a1 a2 N E1 E2 E3 E4| | | |]; subst.
  - exists s'. split; [|auto]. eapply y_more; eassumption.
  - exists s1. split; [apply y_more_nil; assumption|]. intros ts. apply spaced_unskip.
Qed.
Lemma y_le at_ e s ps s' : y at_ e s ps s' -> length s' <= length s.
Proof. intros Y. apply yields_suffix in Y as [x ->]. rewrite app_length. lia. Qed.
Lemma unblank_le s : length (unblank s) <= length s. Proof. apply drop_space_le. Qed.

(** ** Matches are evaluations *)
Lemma yields_evals at_ e s ps s' : y at_ e s ps s' -> ev at_ e s (Some (ps, s')).
Proof.
  induction 1.
  - apply ev_str.
  - eapply ev_range; eassumption.
  - eapply ev_call_any; [|eassumption]. destruct (g_rule selector_grammar q); reflexivity.
  - eapply ev_seq; eassumption.
  - apply ev_alt1; assumption.
  - apply ev_alt2; assumption.
  - apply ev_opt1; assumption.
  - apply ev_opt2; assumption.
  - eapply ev_star_cons; eassumption.
  - apply ev_star_nil; assumption.
  - eapply ev_more_cons; eassumption.
  - apply ev_more_nil; assumption.
  - apply ev_not1; assumption.
  - apply ev_end.
Qed.

Lemma map_result_ok {A B} (f : A -> result B) l l' : map_result f l = Ok l' -> Forall2 (fun x v => f x = Ok v) l l'.
Proof.
  revert l'. induction l as [|x l IH]; intros l' E; cbn [map_result] in E; [injection E as <-; constructor|].
  apply JsonFacts.rbind_ok in E as (v & V & E). apply JsonFacts.rbind_ok in E as (vs & VS & E). injection E as <-. constructor; auto.
Qed.

(** ** Lists *)
Section Bound.
  Variable B : nat.
  Definition sees {A} (q : srule) (parse : spair -> result A) (item : A -> list str -> Prop) (F : list str -> Prop) : Prop :=
    forall s ps s', y false (call q) s ps s' -> length s < B ->
      exists p, ps = [p] /\ p_rule p = q /\ forall v, parse p = Ok v -> exists toks, item v toks /\ adds F toks s s'.
  Lemma sees_list {A} sep q (parse : spair -> result A) (item : A -> list str -> Prop) (Fi F : list str -> Prop) s ps s' :
    sees q parse item Fi -> quiet (lit sep) -> (forall ts, Fi (lit sep :: ts)) -> (forall ts, F ts -> Fi ts) ->
    y false (list_of sep (call q)) s ps s' -> length s < B ->
    ps <> [] /\ Forall (fun p => p_rule p = q) ps
    /\ forall l, Forall2 (fun p v => parse p = Ok v) ps l -> exists toks, listed item sep l toks /\ adds F toks s s'.
  Proof.
    intros SE Q FS FF Y LB. apply yseq in Y as (p1 & s1 & p2 & -> & A1 & Y). cbn [skip] in Y.
    apply star_more in Y as (s'' & Y & SP).
    assert (M : forall s1 ps s'', y false (PMore (PSeq (tok sep) (call q))) s1 ps s'' -> length s1 < B ->
      Forall (fun p => p_rule p = q) ps /\ forall l, Forall2 (fun p v => parse p = Ok v) ps l ->
        (l = [] /\ ps = [] /\ s'' = s1) \/ exists toks, listed item sep l toks /\ adds F ([lit sep] ++ toks) s1 s'').
    { apply (yields_more_ind _ _ _ (fun s1 ps s'' => length s1 < B ->
        Forall (fun p => p_rule p = q) ps /\ forall l, Forall2 (fun p v => parse p = Ok v) ps l ->
        (l = [] /\ ps = [] /\ s'' = s1) \/ exists toks, listed item sep l toks /\ adds F ([lit sep] ++ toks) s1 s'')).
      - intros u _ _. split; [constructor|]. intros l H. inversion H; subst. left. auto.
      - intros u q1 u1 q2 u2 Y1 Y2 IH L. apply yseq in Y1 as (r1 & v1 & r2 & -> & C & D). cbn [skip] in *.
        assert (LC := y_le _ _ _ _ _ C). assert (LD := y_le _ _ _ _ _ D).
        assert (LU := unblank_le u). assert (LV := unblank_le v1). apply ystr in C as (-> & EU).
        destruct (SE _ _ _ D) as (p & -> & RP & P); [lia|]. cbn [app].
        destruct IH as [F2 IH]; [lia|]. split; [constructor; assumption|]. intros l H. inversion H as [|? v ? l' V H']; subst.
        destruct (P v V) as (tx & IX & AX). right.
        assert (AS : adds any [lit sep] u v1). { apply adds_skip. rewrite EU. apply adds_quiet, Q. }
        destruct (IH l' H') as [(-> & -> & ->)|(toks & LT & AT)].
        + exists tx. split; [constructor; exact IX|]. exact (adds_then tx [lit sep] _ _ _ _ _ AS AX FF).
        + exists (tx ++ [lit sep] ++ toks). split; [constructor; assumption|]. refine (adds_then _ [lit sep] F F _ _ _ AS _ (fun _ H => H)).
          intros ts HF H0. rewrite <- app_assoc. apply AX; [apply FS|]. apply AT; assumption. }
    assert (L1 := y_le _ _ _ _ _ A1). destruct (SE _ _ _ A1 LB) as (p & -> & RP & P).
    destruct (M _ _ _ Y) as [F2 M2]; [lia|]. split; [discriminate|]. split; [constructor; assumption|].
    intros l H. inversion H as [|? v ? l' V H']; subst. destruct (P v V) as (tx & IX & AX).
    destruct (M2 l' H') as [(-> & -> & ->)|(toks & LT & AT)].
    - exists tx. split; [constructor; exact IX|]. intros ts HF H0. apply AX; [apply FF, HF|]. apply SP, H0.
    - exists (tx ++ [lit sep] ++ toks). split; [constructor; assumption|].
      intros ts HF H0. rewrite <- app_assoc. apply AX; [apply FS|]. apply AT; [exact HF|]. apply SP, H0.
  Qed.
End Bound.

Ltac quiet_tac := apply quiet_char; [reflexivity|discriminate|discriminate].
(** ** Values *)
Section Values.
  Variable f64_parse : str -> Z.
  Notation value_token := (value_token f64_parse).
  Lemma digits_stuck d c r acc : all_digits d -> is_digit c = false -> digits_val (d ++ c :: r) acc = None.
  Proof.
    intros D C. revert acc. induction D as [|x d X D IH]; intros acc; cbn [app digits_val]; [rewrite C; reflexivity|]. rewrite X. apply IH.
  Qed.
  Lemma no_i64_exponent sign n e : sign = [] \/ sign = lit "-" -> whole n -> exponent e -> i64_from_str (sign ++ n ++ e) = None.
  Proof.
    intros S W (c & sg & d & -> & C & _). assert (D := whole_digits _ W). assert (K : is_digit c = false) by (destruct C as [-> | ->]; reflexivity).
    assert (NE := whole_nonempty _ W). destruct n as [|x n]; [congruence|].
    assert (X : is_digit x = true) by (inversion D; assumption).
    assert (ST := digits_stuck (x :: n) c (sg ++ d) 0%Z D K).
    destruct S as [-> | ->].
    - cbn [app] in *. rewrite digit_head_not by exact X. rewrite ST. reflexivity.
    - change (lit "-" ++ (x :: n) ++ c :: sg ++ d) with ("-"%char :: x :: n ++ c :: sg ++ d). rewrite i64_minus.
      cbn [app] in ST. rewrite ST. reflexivity.
  Qed.
  Lemma number_quiet sign w r : sign = [] \/ sign = lit "-" -> whole w -> quiet (sign ++ w ++ r).
  Proof.
    intros [-> | ->] W; [|quiet_tac]. destruct W as [-> | (c & u & -> & C & _)]; [quiet_tac|]. cbn [app].
    apply quiet_char; all_chars c; try discriminate C; (reflexivity || discriminate).
  Qed.
  Lemma i64_token sign w z : sign = [] \/ sign = lit "-" -> whole w -> i64_from_str (sign ++ w) = Some z -> value_token (SvNumber (NInteger z)) (sign ++ w).
  Proof.
    intros S W E. assert (P := fold_nonneg w (whole_digits _ W) 0%Z ltac:(lia)). change (fold_left dec_step w 0%Z) with (digits_value w) in P.
    destruct S as [-> | ->].
    - cbn [app] in *. rewrite (i64_of_whole w W) in E. cbv zeta in E. change (fold_left dec_step w 0%Z) with (digits_value w) in E.
      destruct (_ && _)%bool eqn:BB; [|discriminate E]. injection E as <-. apply andb_true_iff in BB as [B1 B2]. apply Z.leb_le in B1, B2.
      unfold i64_min, i64_max in *. apply tok_positive; [exact W|reflexivity|lia].
    - assert (DV := digits_val_fold w (whole_digits _ W) 0%Z). change (fold_left dec_step w 0%Z) with (digits_value w) in DV.
      destruct w as [|c w]; [destruct (whole_nonempty _ W eq_refl)|]. change (lit "-" ++ c :: w) with ("-"%char :: c :: w) in E.
      rewrite i64_minus, DV in E. destruct (_ && _)%bool eqn:BB; [|discriminate E]. injection E as <-.
      apply andb_true_iff in BB as [B1 B2]. apply Z.leb_le in B1, B2.
      unfold i64_min, i64_max in *. apply tok_negative; [exact W|reflexivity|lia].
  Qed.
  Lemma sees_value B : sees B S_value (parse_value f64_parse) (says_value f64_parse) any.
  Proof.
    intros s ps s' Y _. apply ycall in Y as (qs & -> & Y). cbn [fst snd selector_rule sub_atomic PAlts seen] in *.
    eexists. split; [reflexivity|]. split; [reflexivity|]. intros v. unfold parse_value. cbn [p_inner].
    apply yalt in Y as [Y|Y]; [|apply yalt in Y as [Y|Y]].
    - apply y_text_token in Y as (q & t & i & -> & -> & NE & Q). cbn [next rbind p_rule p_text].
      replace (firstn _ _) with t.
      2:{ cbn [length skipn]. rewrite app_length. cbn [length].
          replace (S (length t + 1) - 2) with (length t + 0) by lia. rewrite firstn_app_2. cbn [firstn]. symmetry. apply app_nil_r. }
      intros [= <-]. exists [q :: t ++ [q]]. split.
      + eexists. split; [|reflexivity]. destruct Q as [[-> Q]|[-> Q]]; [apply (tok_single f64_parse t NE Q)|apply (tok_double f64_parse t NE Q)].
      + apply adds_quiet. destruct Q as [[-> Q]|[-> Q]]; quiet_tac.
    - apply y_number in Y as (sign & n & frac & exp & S & W & F & E & -> & ->). cbn [next rbind p_rule p_text].
      rewrite !existsb_app, (no_dot _ (whole_digits _ W)).
      replace (existsb (Ascii.eqb ".") sign) with false by (destruct S as [-> | ->]; reflexivity). cbn [orb].
      destruct F as [-> | (d & -> & NE & D)].
      + cbn [existsb app orb]. destruct E as [-> | E].
        * cbn [existsb]. rewrite app_nil_r. destruct (i64_from_str (sign ++ n)) as [z|] eqn:EI; [|discriminate]. intros [= <-].
          exists [sign ++ n]. split; [exists (sign ++ n); split; [exact (i64_token sign n z S W EI)|reflexivity]|]. apply adds_quiet.
          rewrite <- (app_nil_r n). apply number_quiet; assumption.
        * rewrite (exponent_no_dot _ E). rewrite (no_i64_exponent sign n exp S W E). discriminate.
      + replace (existsb (Ascii.eqb ".") ("."%char :: d)) with true by reflexivity. cbn [orb]. intros [= <-].
        eexists. split; [|apply adds_quiet, number_quiet; assumption].
        eexists. split; [|reflexivity].
        replace (sign ++ n ++ ("."%char :: d) ++ exp) with ((sign ++ n ++ "."%char :: d) ++ exp) by (rewrite <- !app_assoc; reflexivity).
        apply tok_float; [exists sign, n, d; auto|exact E|]. f_equal. rewrite <- !app_assoc. reflexivity.
    - apply ycall in Y as (us & -> & Y). cbn [fst snd selector_rule sub_atomic PAlts seen next rbind p_rule p_inner] in *.
      apply yalt in Y as [Y|Y].
      + assert (ST := y_absolute_stop _ _ _ Y). apply y_absolute in Y as (ids & n & NE & F & S & -> & ->). cbn [next rbind p_rule p_text].
        assert (V : valid_id (SID (join ["."%char] ids) n None)).
        { repeat split; [|apply short_is_identifier, S]. exists ids. split; [exact NE|]. split; [|reflexivity].
          apply (Forall_impl _ short_is_identifier), F. }
        assert (E := sid_from_str_complete _ V). unfold id_text in E. cbn [sid_ns sid_name sid_member] in E. rewrite app_nil_r in E.
        rewrite E. cbn [unwrap_result rbind]. intros [= <-]. eexists. split; [eexists; split; [apply (tok_id f64_parse ids n NE F S)|reflexivity]|].
        apply (adds_name (join ["."%char] ids ++ "#"%char :: n)); [|exact ST].
        destruct (join_head ids NE F) as (x & r & J & X). change (lit ".") with ["."%char] in J. rewrite J.
        destruct (short_name_start x X) as (c & u & -> & N). exists c. eexists. split; [reflexivity|exact N].
      + assert (ST := y_identifier_stop _ _ _ _ Y). apply y_identifier in Y as (n & -> & S & ->). cbn [seen next rbind p_rule p_text].
        rewrite (short_from_str _ S). cbn [unwrap_result rbind]. intros [= <-]. exists [n]. split; [eexists; split; [apply tok_name, S|reflexivity]|].
        apply adds_short; assumption.
  Qed.

  (** ** Paths and keys *)
  Lemma sees_name B : sees B S_identifier (fun p => Ok (p_text p)) named any.
  Proof.
    intros s ps s' Y _. assert (ST := y_identifier_stop _ _ _ _ Y). apply y_identifier in Y as (n & -> & S & ->).
    eexists. split; [reflexivity|]. split; [reflexivity|]. intros v [= <-]. exists [n]. split; [split; [exact S|reflexivity]|].
    apply adds_short; assumption.
  Qed.
  (** A token, then the rest. *)
  Lemma tok_adds x s ps s1 t2 (F2 F : list str -> Prop) s' : y false (tok x) s ps s1 -> quiet (lit x) -> adds F2 t2 (unblank s1) s' ->
    (forall ts, F ts -> F2 ts) -> adds F (lit x :: t2) s s'.
  Proof. intros Y Q A K. apply ystr in Y as (_ & ->). exact (adds_then t2 [lit x] _ _ _ _ _ (adds_quiet _ _ Q) A K). Qed.
  Lemma tok_end x s ps s' : y false (tok x) s ps s' -> quiet (lit x) -> adds any [lit x] s s'.
  Proof. intros Y Q. apply ystr in Y as (_ & ->). apply adds_quiet, Q. Qed.
  Lemma sees_segment B : sees B S_path_segment (parse_path_segment f64_parse) (says_segment f64_parse) any.
  Proof.
    intros s ps s' Y L. apply ycall in Y as (qs & -> & Y). cbn [fst snd selector_rule sub_atomic seen] in *.
    eexists. split; [reflexivity|]. split; [reflexivity|]. intros v. unfold parse_path_segment. cbn [p_inner].
    apply yalt in Y as [Y|Y].
    - destruct (sees_value B _ _ _ Y L) as (p & -> & R & G). cbn [next rbind]. rewrite R. intros E.
      apply JsonFacts.rbind_ok in E as (w & W & E). injection E as <-. destruct (G w W) as (toks & (t & T & ->) & A). exists [t].
      split; [constructor; exact T|exact A].
    - apply ycall in Y as (us & -> & Y). cbn [fst snd selector_rule sub_atomic PSeqs seen next rbind p_rule p_inner] in *.
      apply yseq in Y as (p1 & s1 & p2 & -> & A & Y). assert (A' := A). apply ystr in A' as (-> & _).
      apply yseq in Y as (p3 & s3 & p4 & -> & A2 & Y). cbn [skip] in *. assert (ST := y_identifier_stop _ _ _ _ A2).
      apply y_identifier in A2 as (n & E2 & S & ->). cbn [app seen next rbind p_text].
      rewrite (short_from_str _ S). cbn [unwrap_result rbind]. intros [= <-]. exists [lit "("; n; lit ")"]. split; [constructor; exact S|].
      refine (tok_adds "(" _ _ _ [n; lit ")"] any any _ A ltac:(quiet_tac) _ (fun _ H => H)). rewrite E2.
      refine (adds_then [lit ")"] [n] any any _ _ _ (adds_short n s3 S ST) (tok_end ")" _ _ _ Y ltac:(quiet_tac)) (fun _ H => H)).
  Qed.
  Lemma sees_path B : sees B S_path (fun p => parse_path f64_parse [p]) (listed (says_segment f64_parse) "|") any.
  Proof.
    intros s ps s' Y L. apply ycall in Y as (qs & -> & Y). cbn [fst snd selector_rule sub_atomic seen] in *.
    eexists. split; [reflexivity|]. split; [reflexivity|]. intros v. cbn [parse_path p_rule p_inner].
    destruct (sees_list B "|" S_path_segment _ _ any any _ _ _ (sees_segment B) ltac:(quiet_tac) (fun _ => I) (fun _ H => H) Y L) as (_ & _ & G).
    intros E. apply JsonFacts.rbind_ok in E as (l & M & E). cbn [rbind] in E. rewrite app_nil_r in E. injection E as <-.
    apply G, map_result_ok, M.
  Qed.
  Lemma sees_key B : sees B S_key (parse_key f64_parse) (says_key f64_parse) any.
  Proof.
    intros s ps s' Y L. apply ycall in Y as (qs & -> & Y). cbn [fst snd selector_rule sub_atomic seen] in *.
    eexists. split; [reflexivity|]. split; [reflexivity|]. intros v. unfold parse_key. cbn [p_inner].
    apply yseq in Y as (p1 & s1 & p2 & -> & A & Y). assert (L1 := y_le _ _ _ _ _ A). assert (ST := y_identifier_stop _ _ _ _ A).
    apply y_identifier in A as (n & -> & S & ->). cbn [app seen next rbind p_rule p_text].
    rewrite (short_from_str _ S). cbn [unwrap_result rbind]. assert (AN := adds_short n s1 S ST). cbn [skip] in Y.
    apply yopt in Y as [Y|(-> & ->)].
    - apply yseq in Y as (p3 & s3 & p4 & -> & A & Y). assert (A' := A). apply ystr in A' as (-> & E3). cbn [skip] in Y.
      assert (L3 := y_le _ _ _ _ _ A). assert (U1 := unblank_le s1). assert (U3 := unblank_le s3).
      destruct (sees_path B _ _ _ Y) as (p & -> & R & G); [lia|]. cbn [app]. intros E. apply JsonFacts.rbind_ok in E as (l & M & E). injection E as <-.
      destruct (G l M) as (toks & LT & AT). exists ([n; lit "|"] ++ toks). split; [constructor; assumption|].
      refine (adds_then ([lit "|"] ++ toks) [n] any any _ _ _ AN _ (fun _ H => H)).
      exact (tok_adds "|" _ _ _ toks any any _ A ltac:(quiet_tac) AT (fun _ H => H)).
    - cbn. intros [= <-]. exists [n]. split; [constructor; exact S|].
      exact (adds_then [] [n] any any _ _ _ AN (adds_nil _ _) (fun _ H => H)).
  Qed.

  (** ** Comparisons *)
  Definition no_arrow (ts : list str) : Prop := forall ts', ts <> lit "-[" :: ts'.
  Lemma adds_less s : adds no_arrow [lit "<"] (lit "<" ++ s) s.
  Proof.
    intros ts NA H. apply spaced_put; [exact H|]. intros t' ts' -> [(d & u & d' & u' & E & [N|N] & _)|[_ ->]].
    - injection E as <- _. discriminate N.
    - injection E as <- _. discriminate N.
    - destruct (NA ts' eq_refl).
  Qed.
  Lemma sees_sign B : sees B S_comparator parse_comparator (fun c ts => exists sign, sign_of c sign /\ ts = [sign]) no_arrow.
  Proof.
    intros s ps s' Y _. apply ycall in Y as (qs & -> & Y). cbn [fst snd selector_rule sub_atomic seen PAlts] in *.
    eexists. split; [reflexivity|]. split; [reflexivity|]. intros v. unfold parse_comparator. cbn [p_rule p_text].
    assert (K : exists c sign, s = sign ++ s' /\ sign_of c sign /\ comparator_from_str sign = Ok c /\ (sign = lit "<" \/ quiet sign)).
    { Local Ltac sign_case Y x c := apply (y_token _ (lit x)) in Y as (_ & ->); [|reflexivity]; exists c, (lit x);
        split; [reflexivity|split; [constructor|split; [reflexivity|first [left; reflexivity|right; quiet_tac]]]].
      apply yalt in Y as [Y|Y]; [|apply yalt in Y as [Y|Y]]; apply ycall in Y as (us & _ & Y); cbn [fst snd selector_rule sub_atomic PAlts] in Y.
      - apply yalt in Y as [Y|Y]; [sign_case Y "="%string CmEqual|]. apply yalt in Y as [Y|Y]; [sign_case Y "!="%string CmNotEqual|].
        apply yalt in Y as [Y|Y]; [sign_case Y "^="%string CmStartsWith|]. apply yalt in Y as [Y|Y]; [sign_case Y "$="%string CmEndsWith|].
        apply yalt in Y as [Y|Y]; [sign_case Y "*="%string CmContains|]. sign_case Y "?="%string CmExists.
      - apply yalt_not in Y as [Y|[N1 Y]]; [sign_case Y ">"%string CmGreater|].
        apply yalt in Y as [Y|Y].
        { exfalso. apply (y_token _ (lit ">=")) in Y as (_ & ->); [|reflexivity].
          assert (Q := proj2 (tok_rule S_number_gt (lit ">") (lit "=" ++ s') eq_refl)). assert (Z := evals_fun _ _ _ _ _ _ N1 Q). discriminate Z. }
        apply yalt_not in Y as [Y|[N2 Y]]; [sign_case Y "<"%string CmLess|].
        exfalso. apply (y_token _ (lit "<=")) in Y as (_ & ->); [|reflexivity].
        assert (Q := proj2 (tok_rule S_number_lt (lit "<") (lit "=" ++ s') eq_refl)). assert (Z := evals_fun _ _ _ _ _ _ N2 Q). discriminate Z.
      - apply yalt in Y as [Y|Y]; [sign_case Y "{=}"%string CmProjEqual|]. apply yalt in Y as [Y|Y]; [sign_case Y "{!=}"%string CmProjNotEqual|].
        apply yalt in Y as [Y|Y]; [sign_case Y "{<}"%string CmProjSubset|]. sign_case Y "{<<}"%string CmProjProperSubset. }
    destruct K as (c & sign & -> & SG & E & Q). rewrite taken_whole, E. intros [= <-]. exists [sign]. split; [eauto|].
    destruct Q as [-> | Q]; [apply adds_less|]. eapply adds_weaken; [apply adds_quiet, Q|]. intros; exact I.
  Qed.
  (** What may follow the suffix. *)
  Definition no_word (ts : list str) : Prop := forall t ts', ts = t :: ts' -> ~ needs_blank (lit "i") t.
  Lemma no_word_here c r ts : word c = false -> no_word ((c :: r) :: ts).
  Proof.
    intros W t ts' [= <- <-] [(d & u & d' & u' & _ & _ & E & N)|[E _]]; [|discriminate E]. injection E as <- _.
    unfold word in W. apply orb_false_iff in W as [W U]. apply orb_false_iff in W as [A D]. destruct N as [N|[N|N]]; [congruence|congruence|].
    subst. discriminate U.
  Qed.
  Lemma sees_suffix s ps s' : y false (POpt (call S_case_suffix)) s ps s' -> exists b, is_suffix b ps /\ adds no_word (suffix b) s s'.
  Proof.
    intros Y. apply yopt in Y as [Y|(-> & ->)].
    - exists true. apply (y_token _ (lit "i")) in Y as (-> & ->); [|reflexivity]. split; [eexists; eexists; reflexivity|].
      intros ts NW H. apply spaced_put; [exact H|]. intros t' ts' -> N. destruct (NW _ _ eq_refl N).
    - exists false. split; [reflexivity|apply adds_nil].
  Qed.
  Lemma parse_values_inv {A} (vq q : srule) (values value : srule -> bool) (f : spair -> result A) t qs sfx b l b' :
    values vq = true -> values S_case_suffix = false -> value q = true -> Forall (fun p => p_rule p = q) qs -> is_suffix b sfx ->
    parse_values values value f (Pair vq t qs :: sfx) = Ok (l, b') -> b' = b /\ Forall2 (fun p v => f p = Ok v) qs l.
  Proof.
    intros V1 V2 V3 F S. cbn [parse_values p_rule p_inner]. rewrite V1. intros E. apply JsonFacts.rbind_ok in E as (vs & M & E).
    apply JsonFacts.rbind_ok in E as ([l2 b2] & M2 & E). cbn [fst snd] in E. injection E as <- <-.
    assert (K : l2 = [] /\ b2 = b).
    { destruct b; cbn [is_suffix] in S.
      - destruct S as (x & i & ->). cbn [parse_values p_rule rbind fst] in M2. rewrite V2 in M2. injection M2 as <- <-. auto.
      - subst sfx. cbn in M2. injection M2 as <- <-. auto. }
    destruct K as [-> ->]. rewrite app_nil_r. split; [reflexivity|]. apply map_result_ok in M. clear -M F V3.
    revert F. induction M as [|p v ps l E M IH]; intros F; [constructor|]. inversion F as [|? ? R F']; subst. constructor; [|auto].
    cbv beta in E. rewrite V3 in E. exact E.
  Qed.
  Lemma value_no_arrow v t ts : value_token v t -> no_arrow (t :: ts).
  Proof.
    intros V ts' E. injection E as E _. revert E. destruct V as [s NE Q|s NE Q|n w W E B|n w W E B|b t e D EX E|n S|ids n NE F S]; intros K.
    - discriminate K.
    - discriminate K.
    - destruct W as [-> | (c & u & -> & C & _)]; [discriminate K|]. injection K as -> _. discriminate C.
    - injection K as K. destruct W as [-> | (c & u & -> & C & _)]; [discriminate K|]. injection K as -> _. discriminate C.
    - destruct D as (sign & w & fr & -> & [-> | ->] & W & _); rewrite <- !app_assoc in K.
      + destruct W as [-> | (c & u & -> & C & _)]; [discriminate K|]. injection K as -> _. discriminate C.
      + injection K as K. destruct W as [-> | (c & u & -> & C & _)]; [discriminate K|]. injection K as -> _. discriminate C.
    - destruct (short_name_start n S) as (c & r & -> & [N|N]); injection K as -> _; discriminate N.
    - destruct (join_head ids NE F) as (x & r & J & X). rewrite J, <- app_assoc in K.
      destruct (short_name_start x X) as (c & u & -> & [N|N]); injection K as -> _; discriminate N.
  Qed.
  Lemma listed_no_arrow {A} (item : A -> list str -> Prop) sep l ts rest : (forall x tx r, item x tx -> no_arrow (tx ++ r)) ->
    listed item sep l ts -> no_arrow (ts ++ rest).
  Proof. intros K [x tx I|x l' tx tx' I L]; [apply (K x), I|]. rewrite <- app_assoc. apply (K x), I. Qed.
  Lemma sees_comparison B : sees B S_attr_comparison (parse_attr_comparison f64_parse)
    (fun c ts => exists sign tv, sign_of (cp_comparator c) sign /\ listed (says_value f64_parse) "," (cp_values c) tv
                 /\ ts = [sign] ++ tv ++ suffix (cp_insensitive c)) no_word.
  Proof.
    intros s ps s' Y L. apply ycall in Y as (qs & -> & Y). cbn [fst snd selector_rule sub_atomic seen PSeqs] in *.
    eexists. split; [reflexivity|]. split; [reflexivity|]. intros v. unfold parse_attr_comparison. cbn [p_inner].
    apply yseq in Y as (p1 & s1 & p2 & -> & A & Y). assert (L1 := y_le _ _ _ _ _ A). assert (U1 := unblank_le s1).
    destruct (sees_sign B _ _ _ A L) as (c & -> & RC & GC). cbn [app next rbind skip] in *. 
    apply yseq in Y as (p3 & s3 & p4 & -> & A2 & Y). apply ycall in A2 as (us & -> & A2). cbn [fst snd selector_rule sub_atomic seen app skip] in *.
    destruct (sees_list B "," S_value _ _ any any _ _ _ (sees_value B) ltac:(quiet_tac) (fun _ => I) (fun _ H => H) A2) as (NE & FR & G); [lia|].
    apply sees_suffix in Y as (b & SB & AB).
    intros E. apply JsonFacts.rbind_ok in E as (cmp & EC & E). apply JsonFacts.rbind_ok in E as ([vs b'] & EV & E). cbn [fst snd] in E. injection E as <-.
    apply (parse_values_inv S_attr_values S_value _ _ _ _ us p4 b) in EV as (-> & F2); [|reflexivity|reflexivity|reflexivity|exact FR|exact SB].
    destruct (GC cmp EC) as (ts & (sign & SG & ->) & AC). destruct (G vs F2) as (tv & LV & AV).
    exists ([sign] ++ tv ++ suffix b). split; [exists sign, tv; auto|].
    refine (adds_seq no_arrow no_word no_word [sign] (tv ++ suffix b) _ _ _ AC _ _ (fun _ H => H)).
    - exact (adds_then (suffix b) tv no_word no_word _ _ _ AV AB (fun _ H => H)).
    - intros ts _. rewrite <- app_assoc. refine (listed_no_arrow _ _ _ _ _ _ LV). intros x tx r (t & T & ->). apply (value_no_arrow x), T.
  Qed.
  Lemma sees_attribute B : sees B S_attr (parse_attr f64_parse) (says_attribute f64_parse) any.
  Proof.
    intros s ps s' Y L. apply ycall in Y as (qs & -> & Y). cbn [fst snd selector_rule sub_atomic seen PSeqs] in *.
    eexists. split; [reflexivity|]. split; [reflexivity|]. intros v. unfold parse_attr. cbn [p_inner].
    apply yseq in Y as (p1 & s1 & p2 & -> & A & Y). assert (L1 := y_le _ _ _ _ _ A). assert (U1 := unblank_le s1). assert (A' := A). apply ystr in A' as (-> & _).
    apply yseq in Y as (p3 & s3 & p4 & -> & A3 & Y). cbn [skip] in *. assert (L3 := y_le _ _ _ _ _ A3). assert (U3 := unblank_le s3).
    destruct (sees_key B _ _ _ A3) as (k & -> & RK & GK); [lia|]. cbn [app]. rewrite RK.
    apply yseq in Y as (p5 & s5 & p6 & -> & A5 & Y). assert (Y' := Y). apply ystr in Y' as (-> & _). rewrite app_nil_r. cbn [skip] in *.
    intros E. apply JsonFacts.rbind_ok in E as (ky & EK & E). destruct (GK ky EK) as (tk & SK & AK).
    apply yopt in A5 as [A5|(-> & ->)].
    - destruct (sees_comparison B _ _ _ A5) as (c & -> & RC & GC); [lia|]. rewrite RC in E. apply JsonFacts.rbind_ok in E as (cmp & EC & E). injection E as <-.
      destruct (GC cmp EC) as (tc & (sign & tv & SG & LV & ->) & AC). destruct cmp as [cc vs i]. cbn [cp_comparator cp_values cp_insensitive] in *.
      exists ([lit "["] ++ tk ++ [sign] ++ tv ++ suffix i ++ [lit "]"]). split; [constructor; assumption|].
      refine (tok_adds "[" _ _ _ _ any any _ A ltac:(quiet_tac) _ (fun _ H => H)).
      refine (adds_then _ tk any any _ _ _ AK _ (fun _ H => H)).
      replace ([sign] ++ tv ++ suffix i ++ [lit "]"]) with (([sign] ++ tv ++ suffix i) ++ [lit "]"]) by (rewrite <- !app_assoc; reflexivity).
      refine (adds_seq no_word any any _ [lit "]"] _ _ _ AC (tok_end "]" _ _ _ Y ltac:(quiet_tac)) _ (fun _ H => H)).
      intros ts _. apply no_word_here. reflexivity.
    - injection E as <-. exists ([lit "["] ++ tk ++ [lit "]"]). split; [constructor; assumption|].
      refine (tok_adds "[" _ _ _ _ any any _ A ltac:(quiet_tac) _ (fun _ H => H)).
      refine (adds_then _ tk any any _ _ _ AK _ (fun _ H => H)). rewrite unblank_twice in Y.
      exact (tok_end "]" _ _ _ Y ltac:(quiet_tac)).
  Qed.

  (** ** Scoped attributes *)
  Lemma sees_scoped_value B : sees B S_scoped_value (parse_scoped_value f64_parse) (says_scoped_value f64_parse) any.
  Proof.
    intros s ps s' Y L. apply ycall in Y as (qs & -> & Y). cbn [fst snd selector_rule sub_atomic seen] in *.
    eexists. split; [reflexivity|]. split; [reflexivity|]. intros v. unfold parse_scoped_value. cbn [p_inner].
    apply yalt in Y as [Y|Y].
    - destruct (sees_value B _ _ _ Y L) as (p & -> & R & G). cbn [next rbind]. rewrite R. intros E.
      apply JsonFacts.rbind_ok in E as (w & W & E). injection E as <-. destruct (G w W) as (toks & (t & T & ->) & A). exists [t].
      split; [constructor; exact T|exact A].
    - apply ycall in Y as (us & -> & Y). cbn [fst snd selector_rule sub_atomic PSeqs seen next rbind p_rule p_inner] in *.
      apply yseq in Y as (p1 & s1 & p2 & -> & A & Y). assert (L1 := y_le _ _ _ _ _ A). assert (U1 := unblank_le s1). assert (A' := A). apply ystr in A' as (-> & _).
      apply yseq in Y as (p3 & s3 & p4 & -> & A3 & Y). assert (Y' := Y). apply ystr in Y' as (-> & _). cbn [skip] in *.
      destruct (sees_path B _ _ _ A3) as (p & -> & R & G); [lia|]. cbn [app]. intros E. apply JsonFacts.rbind_ok in E as (l & M & E). injection E as <-.
      destruct (G l M) as (toks & LT & AT). exists ([lit "@{"] ++ toks ++ [lit "}"]). split; [constructor; exact LT|].
      refine (tok_adds "@{" _ _ _ _ any any _ A ltac:(quiet_tac) _ (fun _ H => H)).
      exact (adds_then _ toks any any _ _ _ AT (tok_end "}" _ _ _ Y ltac:(quiet_tac)) (fun _ H => H)).
  Qed.
  Lemma sees_assertion B : sees B S_scoped_assertion (parse_scoped_assertion f64_parse) (says_assertion f64_parse) no_word.
  Proof.
    intros s ps s' Y L. apply ycall in Y as (qs & -> & Y). cbn [fst snd selector_rule sub_atomic seen PSeqs] in *.
    eexists. split; [reflexivity|]. split; [reflexivity|]. intros v. unfold parse_scoped_assertion. cbn [p_inner].
    apply yseq in Y as (p1 & s1 & p2 & -> & A & Y). assert (L1 := y_le _ _ _ _ _ A). assert (U1 := unblank_le s1).
    destruct (sees_scoped_value B _ _ _ A L) as (vp & -> & RV & GV). cbn [app next rbind skip] in *. rewrite RV.
    apply yseq in Y as (p3 & s3 & p4 & -> & A2 & Y). assert (L3 := y_le _ _ _ _ _ A2). assert (U3 := unblank_le s3).
    destruct (sees_sign B _ _ _ A2) as (c & -> & RC & GC); [lia|]. cbn [app next rbind skip] in *.
    apply yseq in Y as (p5 & s5 & p6 & -> & A3 & Y). apply ycall in A3 as (us & -> & A3). cbn [fst snd selector_rule sub_atomic seen app skip] in *.
    destruct (sees_list B "," S_scoped_value _ _ any any _ _ _ (sees_scoped_value B) ltac:(quiet_tac) (fun _ => I) (fun _ H => H) A3) as (NE & FR & G); [lia|].
    apply sees_suffix in Y as (b & SB & AB).
    intros E. apply JsonFacts.rbind_ok in E as (lhs & EL & E). apply JsonFacts.rbind_ok in E as (cmp & EC & E).
    apply JsonFacts.rbind_ok in E as ([vs b'] & EV & E). cbn [fst snd] in E. injection E as <-.
    apply (parse_values_inv S_scoped_values S_scoped_value _ _ _ _ us p6 b) in EV as (-> & F2); [|reflexivity|reflexivity|reflexivity|exact FR|exact SB].
    destruct (GV lhs EL) as (tl & SL & AL). destruct (GC cmp EC) as (ts & (sign & SG & ->) & AC). destruct (G vs F2) as (tv & LV & AV).
    exists (tl ++ [sign] ++ tv ++ suffix b). split; [constructor; assumption|].
    refine (adds_then _ tl no_word no_word _ _ _ AL _ (fun _ H => H)).
    refine (adds_seq no_arrow no_word no_word [sign] (tv ++ suffix b) _ _ _ AC _ _ (fun _ H => H)).
    - exact (adds_then (suffix b) tv no_word no_word _ _ _ AV AB (fun _ H => H)).
    - intros ts _. rewrite <- app_assoc. refine (listed_no_arrow _ _ _ _ _ _ LV). intros x tx r SV. destruct SV as [w t T|p tp LP]; [apply (value_no_arrow w), T|].
      intros ts' K. discriminate K.
  Qed.
  Lemma assertions_inv key qs v : Forall (fun p => p_rule p = S_scoped_assertion) qs ->
    (l <- map_result (fun q => match p_rule q with
                               | S_scoped_assertion => parse_scoped_assertion f64_parse q
                               | _ => unexpected "parse_selector_scoped_attr"
                               end) qs ;;
     match l with [] => Panic | _ => Ok (Scoped key l) end) = Ok v ->
    exists l, v = Scoped key l /\ Forall2 (fun p a => parse_scoped_assertion f64_parse p = Ok a) qs l.
  Proof.
    intros F E. apply JsonFacts.rbind_ok in E as (l & M & E). exists l. split; [destruct l; [discriminate E|injection E as <-; reflexivity]|].
    apply map_result_ok in M. clear E. revert F. induction M as [|p a ps l E M IH]; intros F; [constructor|]. inversion F as [|? ? R F']; subst.
    constructor; [|auto]. cbv beta in E. rewrite R in E. exact E.
  Qed.
  Lemma sees_scoped B : sees B S_scoped_attr (parse_scoped_attr f64_parse) (says_scoped f64_parse) any.
  Proof.
    intros s ps s' Y L. apply ycall in Y as (qs & -> & Y). cbn [fst snd selector_rule sub_atomic seen PSeqs] in *.
    eexists. split; [reflexivity|]. split; [reflexivity|]. intros v.
    apply yseq in Y as (p1 & s1 & p2 & -> & A & Y). assert (L1 := y_le _ _ _ _ _ A). assert (U1 := unblank_le s1). assert (A' := A). apply ystr in A' as (-> & _). cbn [skip] in *.
    apply yseq in Y as (p3 & s3 & p4 & -> & A3 & Y). assert (L3 := y_le _ _ _ _ _ A3). assert (U3 := unblank_le s3). cbn [skip] in *.
    apply yseq in Y as (p5 & s5 & p6 & -> & A5 & Y). assert (L5 := y_le _ _ _ _ _ A5). assert (U5 := unblank_le s5). assert (A5' := A5). apply ystr in A5' as (-> & _). cbn [skip] in *.
    apply yseq in Y as (p7 & s7 & p8 & -> & A7 & Y). assert (Y' := Y). apply ystr in Y' as (-> & _). cbn [skip] in *.
    apply ycall in A7 as (us & -> & A7). cbn [fst snd selector_rule sub_atomic seen] in *.
    destruct (sees_list B "&&" S_scoped_assertion _ _ no_word (fun ts => exists ts', ts = lit "]" :: ts') _ _ _ (sees_assertion B) ltac:(quiet_tac)
      (fun ts => no_word_here "&"%char (lit "&") ts eq_refl) ltac:(intros ? [? ->]; apply no_word_here; reflexivity) A7) as (NE & FR & G); [lia|].
    assert (END : forall tl, adds (fun ts => exists ts', ts = lit "]" :: ts') tl (unblank s5) s7 -> adds any (tl ++ [lit "]"]) (unblank s5) s').
    { intros tl AT. refine (adds_seq _ any any tl [lit "]"] _ _ _ AT (tok_end "]" _ _ _ Y ltac:(quiet_tac)) _ (fun _ H => H)).
      intros ts _. exists ts. reflexivity. }
    apply yopt in A3 as [A3|(-> & ->)].
    - destruct (sees_key B _ _ _ A3) as (k & -> & RK & GK); [lia|]. unfold parse_scoped_attr. cbn [p_inner app next rbind]. rewrite RK.
      intros E. apply JsonFacts.rbind_ok in E as (ky & EK & E). cbn [next rbind p_rule p_inner] in E.
      apply (assertions_inv (Some ky)) in E as (l & -> & F2); [|exact FR]. destruct (GK ky EK) as (tk & SK & AK). destruct (G l F2) as (tl & LT & AT).
      exists ([lit "[@"] ++ tk ++ [lit ":"] ++ tl ++ [lit "]"]). split; [constructor; assumption|].
      refine (tok_adds "[@" _ _ _ _ any any _ A ltac:(quiet_tac) _ (fun _ H => H)).
      refine (adds_then _ tk any any _ _ _ AK _ (fun _ H => H)).
      exact (tok_adds ":" _ _ _ _ any any _ A5 ltac:(quiet_tac) (END _ AT) (fun _ H => H)).
    - unfold parse_scoped_attr. cbn [p_inner app next rbind p_rule]. intros E.
      apply (assertions_inv None) in E as (l & -> & F2); [|exact FR]. destruct (G l F2) as (tl & LT & AT).
      exists ([lit "[@"; lit ":"] ++ tl ++ [lit "]"]). split; [constructor; assumption|].
      refine (tok_adds "[@" _ _ _ _ any any _ A ltac:(quiet_tac) _ (fun _ H => H)). rewrite unblank_twice in A5.
      exact (tok_adds ":" _ _ _ _ any any _ A5 ltac:(quiet_tac) (END _ AT) (fun _ H => H)).
  Qed.
End Values.

(** ** Expressions *)
Section Expressions.
  Variable f64_parse : str -> Z.
  Lemma sees_type B : sees B S_shape_types parse_shape_types (fun t ts => ts = [type_word t]) any.
  Proof.
    intros s ps s' Y _. apply ycall in Y as (us & -> & Y). cbn [fst snd selector_rule sub_atomic seen] in *. eexists. split; [reflexivity|]. split; [reflexivity|].
    intros v. unfold parse_shape_types. cbn [p_inner]. apply yalt in Y as [Y|Y].
    - apply ystr in Y as (-> & ->). intros [= <-]. exists [lit "*"]. split; [reflexivity|]. apply adds_quiet. quiet_tac.
    - assert (ST := y_identifier_stop _ _ _ _ Y). apply y_identifier in Y as (n & -> & S & ->). cbn [seen p_rule p_text]. intros E.
      exists [n]. split; [|apply adds_short; assumption]. f_equal. unfold shape_type_from_str in E.
      destruct (match_str shape_type_arms n) as [t|] eqn:M; [|discriminate E]. injection E as ->. revert M. clear.
      unfold shape_type_arms. cbn [match_str].
      repeat (match goal with |- (if str_eqb ?k n then _ else _) = _ -> _ => destruct (str_eqb k n) eqn:EQ; [apply str_eqb_eq in EQ; subst n; intros [= <-]; reflexivity|clear EQ] end). discriminate.
  Qed.
  Lemma sees_directed B q (o c : string) : selector_rule q = (Normal, PSeqs [tok o; call S_directed_relationships; tok c]) -> quiet (lit o) -> quiet (lit c) ->
    sees B q parse_directed (fun l ts => exists tl, listed named "," l tl /\ ts = [lit o] ++ tl ++ [lit c]) any.
  Proof.
    intros ER QO QC s ps s' Y L. apply ycall in Y as (qs & -> & Y). rewrite ER in *. cbn [fst snd selector_rule sub_atomic seen PSeqs] in *.
    eexists. split; [reflexivity|]. split; [reflexivity|]. intros v. unfold parse_directed. cbn [p_inner].
    apply yseq in Y as (p1 & s1 & p2 & -> & A & Y). assert (L1 := y_le _ _ _ _ _ A). assert (U1 := unblank_le s1). assert (A' := A). apply ystr in A' as (-> & _). cbn [skip] in *.
    apply yseq in Y as (p3 & s3 & p4 & -> & A3 & Y). assert (Y' := Y). apply ystr in Y' as (-> & _). cbn [skip] in *.
    apply ycall in A3 as (us & -> & A3). cbn [fst snd selector_rule sub_atomic seen app next rbind p_rule p_inner] in *.
    destruct (sees_list B "," S_identifier _ _ any any _ _ _ (sees_name B) ltac:(quiet_tac) (fun _ => I) (fun _ H => H) A3) as (_ & FR & G); [lia|].
    intros E. apply map_result_ok in E.
    destruct (G v) as (tl & LT & AT).
    { revert FR. clear -E. induction E as [|p a ps l E M IH]; intros F; [constructor|]. inversion F as [|? ? R F']; subst. constructor; [|auto].
      cbv beta in E. rewrite R in E. unfold ident_from_str in E. destruct (ident_is_valid (p_text p)); [|discriminate E]. exact E. }
    eexists. split; [exists tl; split; [exact LT|reflexivity]|].
    refine (tok_adds o _ _ _ _ any any _ A QO _ (fun _ H => H)).
    exact (adds_then _ tl any any _ _ _ AT (tok_end c _ _ _ Y QC) (fun _ H => H)).
  Qed.

  (** [<] is not the start of an arrow. *)
  Lemma y_shaft u ps r : y false (call S_selector_expression) (lit "-[" ++ u) ps r ->
    exists qs, y false (call S_forward_directed) (lit "-[" ++ u) qs r.
  Proof.
    intros Y. apply ycall in Y as (qs & _ & Y). cbn [fst snd selector_rule sub_atomic PAlts] in Y.
    assert (NO : forall q r0 ps0, ev false (call q) (lit "-[" ++ u) None -> y false (call q) (lit "-[" ++ u) ps0 r0 -> False).
    { intros q r0 ps0 N K. apply yields_evals in K. assert (Z := evals_fun _ _ _ _ _ _ N K). discriminate Z. }
    do 4 (apply yalt in Y as [Y|Y]; [exfalso; revert Y; apply NO; ev_compute|]).
    apply yalt in Y as [Y|Y]; [eauto|]. exfalso.
    do 5 (apply yalt in Y as [Y|Y]; [revert Y; apply NO; ev_compute|]). revert Y; apply NO; ev_compute.
  Qed.
  Lemma no_shaft u ps ps2 r : y false (call S_selector_expression) (lit "<" ++ lit "-[" ++ u) ps (lit "-[" ++ u) ->
    y false (call S_selector_expression) (lit "-[" ++ u) ps2 r -> False.
  Proof.
    intros Y1 Y2. apply y_shaft in Y2 as (qs & Y2). apply ycall in Y2 as (us & _ & Y2). cbn [fst snd selector_rule sub_atomic PSeqs] in Y2.
    apply yseq in Y2 as (p1 & s1 & p2 & _ & A & Y2). apply ystr in A as (_ & E). apply app_inv_head in E. subst s1. cbn [skip] in Y2.
    apply yseq in Y2 as (p3 & s3 & p4 & _ & A & Y2). apply ystr in Y2 as (_ & E3). cbn [skip] in E3.
    assert (LA := y_le _ _ _ _ _ A). assert (UU := unblank_le u). assert (US := unblank_le s3).
    apply yields_evals in A. apply yields_evals in Y1.
    assert (K : exists ps', ev false (call S_selector_expression) (lit "<" ++ lit "-[" ++ u) (Some (ps', lit ">" ++ r))).
    { eexists. refine (ev_rule_any false S_selector_expression _ _ _ _). cbn [sub_atomic fst snd selector_rule PAlts].
      do 5 (apply ev_alt2; [ev_compute|]). apply ev_alt1.
      refine (ev_rule_any false S_reverse_directed _ _ _ _). cbn [sub_atomic fst snd selector_rule PSeqs].
      refine (ev_seq _ _ _ _ _ [] u _ _ _ (ev_seq _ _ _ _ _ _ _ _ _ A _)); [apply (ev_str _ false (lit "<-[") u)|].
      cbn [skip]. rewrite E3. apply (ev_str _ false (lit "]-") (lit ">" ++ r)). }
    destruct K as (ps' & K). assert (Z := evals_fun _ _ _ _ _ _ Y1 K). apply (f_equal (fun r => match r with Some (_, x) => length x | None => 0 end)) in Z.
    cbv beta iota in Z. rewrite !app_length in Z. cbn [lit list_ascii_of_string length] in Z. apply (f_equal (@length ascii)) in E3. rewrite app_length in E3.
    cbn [lit list_ascii_of_string length] in E3. lia.
  Qed.

  Definition after (s s' : str) (ts : list str) : Prop := no_arrow ts \/ ~ (exists u, s' = lit "-[" ++ u /\ s = lit "<" ++ s').
  Lemma adds_reverse s : adds (after (lit "<" ++ s) s) [lit "<"] (lit "<" ++ s) s.
  Proof.
    intros ts [NA|NS] H; [apply adds_less; assumption|]. apply spaced_put; [exact H|].
    intros t' ts' -> [(d & u & d' & u' & E & [N|N] & _)|[_ ->]].
    - injection E as <- _. discriminate N.
    - injection E as <- _. discriminate N.
    - apply spaced_cons in H as (b & s' & BL & -> & H & A). destruct b as [|x b].
      + destruct NS. exists s'. auto.
      + inversion BL; subst. eexists. eexists. split; [reflexivity|assumption].
  Qed.
  Definition sees_expr B : Prop := forall s ps s', y false (call S_selector_expression) s ps s' -> length s < B ->
    exists p, ps = [p] /\ p_rule p = S_selector_expression
      /\ forall v, parse_expression f64_parse p = Ok v -> exists toks, says_expr f64_parse v toks /\ adds (after s s') toks s s'.
  Lemma sees_selector B : sees_expr B -> sees B S_selector (parse_a_selector f64_parse) (says_selector f64_parse) no_arrow.
  Proof.
    intros SE s ps s' Y L. apply ycall in Y as (qs & -> & Y). cbn [fst snd selector_rule sub_atomic seen] in *.
    eexists. split; [reflexivity|]. split; [reflexivity|]. intros v. unfold parse_a_selector. cbn [p_rule p_inner].
    apply yseq in Y as (p1 & s1 & p2 & -> & A & Y). cbn [skip] in Y. apply star_more in Y as (s2 & Y & SP).
    assert (M : forall s ps s', y false (PMore (call S_selector_expression)) s ps s' -> forall s0 p0, y false (call S_selector_expression) s0 p0 s -> length s0 < B ->
      Forall (fun p => p_rule p = S_selector_expression) (p0 ++ ps)
      /\ forall l, Forall2 (fun p x => parse_expression f64_parse p = Ok x) (p0 ++ ps) l -> exists toks, says_selector f64_parse l toks /\ adds no_arrow toks s0 s').
    { apply (yields_more_ind _ _ _ (fun s ps s' => forall s0 p0, y false (call S_selector_expression) s0 p0 s -> length s0 < B ->
      Forall (fun p => p_rule p = S_selector_expression) (p0 ++ ps)
      /\ forall l, Forall2 (fun p x => parse_expression f64_parse p = Ok x) (p0 ++ ps) l -> exists toks, says_selector f64_parse l toks /\ adds no_arrow toks s0 s')).
      - intros u _ s0 p0 Y0 L0. destruct (SE _ _ _ Y0 L0) as (p & -> & R & G). split; [constructor; [exact R|constructor]|].
        intros l H. inversion H as [|? x ? l' X H']; subst. inversion H'; subst. destruct (G x X) as (tx & SX & AX). exists tx.
        split; [constructor; exact SX|]. eapply adds_weaken; [exact AX|]. intros ts NA. left. exact NA.
      - intros u q1 u1 q2 u2 Y1 Y2 IH s0 p0 Y0 L0. destruct (SE _ _ _ Y0 L0) as (p & -> & R & G). cbn [skip] in Y1.
        assert (LL := y_le _ _ _ _ _ Y0). assert (UU := unblank_le u). destruct (IH _ _ Y1) as (FR & IH2); [lia|].
        split; [constructor; assumption|]. intros l H. cbn [app] in H. inversion H as [|? x ? l' X H']; subst. destruct (G x X) as (tx & SX & AX).
        destruct (IH2 l' H') as (tl & SL & AL). exists (tx ++ tl). split; [constructor; assumption|].
        refine (adds_seq (after s0 u) no_arrow no_arrow tx tl _ _ _ AX AL _ (fun _ K => K)).
        intros ts _. right. intros (w & -> & ->). rewrite unblank_solid in Y1 by (apply solid_char; reflexivity). exact (no_shaft _ _ _ _ Y0 Y1). }
    destruct (M _ _ _ Y _ _ A L) as (FR & G). intros E. apply map_result_ok in E.
    destruct (G v) as (toks & SV & AV).
    { revert FR. clear -E. induction E as [|p a ps l E M IH]; intros F; [constructor|]. inversion F as [|? ? R F']; subst. constructor; [|auto].
      cbv beta in E. rewrite R in E. exact E. }
    exists toks. split; [exact SV|]. intros ts HF H. apply AV; [exact HF|]. apply SP, H.
  Qed.
  Lemma arguments_listed l ts : listed (says_selector f64_parse) "," l ts -> says_arguments f64_parse l ts.
  Proof. induction 1; constructor; assumption. Qed.

  Lemma sees_expression : forall B, sees_expr B.
  Proof.
    induction B as [|B IH].
    { intros s ps s' Y L. lia. }
    intros s ps s' Y L. apply ycall in Y as (qs & -> & Y). cbn [fst snd selector_rule sub_atomic seen PAlts] in *.
    eexists. split; [reflexivity|]. split; [reflexivity|]. intros v.
    assert (ANY : forall toks, adds any toks s s' -> adds (after s s') toks s s') by (intros toks H; eapply adds_weaken; [exact H|intros; exact I]).
    apply yalt in Y as [Y|Y].
    { destruct (sees_type _ _ _ _ Y L) as (p & -> & R & G). destruct p as [r t i]. cbn in R. subst r. cbn [parse_expression].
      intros E. apply JsonFacts.rbind_ok in E as (a & EA & E). injection E as <-. destruct (G a EA) as (toks & -> & AT). exists [type_word a].
      split; [constructor|apply ANY, AT]. }
    apply yalt in Y as [Y|Y].
    { destruct (sees_attribute f64_parse _ _ _ _ Y L) as (p & -> & R & G). destruct p as [r t i]. cbn in R. subst r. cbn [parse_expression].
      intros E. apply JsonFacts.rbind_ok in E as (a & EA & E). injection E as <-. destruct (G a EA) as (toks & SA & AT). exists toks.
      split; [constructor; exact SA|apply ANY, AT]. }
    apply yalt in Y as [Y|Y].
    { destruct (sees_scoped f64_parse _ _ _ _ Y L) as (p & -> & R & G). destruct p as [r t i]. cbn in R. subst r. cbn [parse_expression].
      intros E. apply JsonFacts.rbind_ok in E as (a & EA & E). injection E as <-. destruct (G a EA) as (toks & SA & AT). exists toks.
      split; [constructor; exact SA|apply ANY, AT]. }
    apply yalt in Y as [Y|Y].
    { apply ycall in Y as (us & -> & Y). cbn [fst snd selector_rule sub_atomic seen PSeqs] in *.
      apply yseq in Y as (p1 & s1 & p2 & -> & A & Y). cbn [skip] in *. assert (U1 := unblank_le s1).
      assert (A' := A). apply ystr in A' as (-> & ES). assert (L1 : length s1 < length s) by (rewrite ES; cbn; lia).
      apply yseq in Y as (p3 & s3 & p4 & -> & A3 & Y). cbn [skip] in *. assert (L3 := y_le _ _ _ _ _ A3). assert (U3 := unblank_le s3).
      assert (ST := y_identifier_stop _ _ _ _ A3). apply y_identifier in A3 as (n & E3 & N & ->).
      apply yseq in Y as (p5 & s5 & p6 & -> & A5 & Y). cbn [skip] in *. assert (L5 := y_le _ _ _ _ _ A5). assert (U5 := unblank_le s5).
      assert (A5' := A5). apply ystr in A5' as (-> & _).
      apply yseq in Y as (p7 & s7 & p8 & -> & A7 & Y). cbn [skip] in *. assert (Y' := Y). apply ystr in Y' as (-> & _).
      apply ycall in A7 as (vs & -> & A7). cbn [fst snd selector_rule sub_atomic seen app] in *.
      destruct (sees_list B "," S_selector _ _ no_arrow (fun ts => exists ts', ts = lit ")" :: ts') _ _ _ (sees_selector B IH) ltac:(quiet_tac)
        ltac:(intros ts ts' K; discriminate K) ltac:(intros ? [? ->] ts' K; discriminate K) A7) as (NE & FR & G); [lia|].
      rewrite parse_function_eq by reflexivity. cbn [p_text]. rewrite (short_from_str _ N). cbn [rbind].
      intros E. apply JsonFacts.rbind_ok in E as (l & M & E). destruct l as [|a0 l0]; [discriminate E|]. injection E as <-.
      destruct (G (a0 :: l0)) as (tl & LT & AT).
      { apply map_result_ok in M. revert FR. clear -M. induction M as [|p a ps l E M IH]; intros F; [constructor|]. inversion F as [|? ? R F']; subst. constructor; [|auto].
        cbv beta in E. rewrite R in E. exact E. }
      exists ([lit ":"; n; lit "("] ++ tl ++ [lit ")"]). split; [constructor; [exact N|apply arguments_listed, LT]|]. apply ANY.
      refine (tok_adds ":" _ _ _ ([n; lit "("] ++ tl ++ [lit ")"]) any any _ A ltac:(quiet_tac) _ (fun _ H => H)). rewrite E3.
      refine (adds_then ([lit "("] ++ tl ++ [lit ")"]) [n] any any _ _ _ (adds_short n s3 N ST) _ (fun _ H => H)).
      refine (tok_adds "(" _ _ _ (tl ++ [lit ")"]) any any _ A5 ltac:(quiet_tac) _ (fun _ H => H)).
      refine (adds_seq _ any any tl [lit ")"] _ _ _ AT (tok_end ")" _ _ _ Y ltac:(quiet_tac)) _ (fun _ H => H)). intros ts _. exists ts. reflexivity. }
    apply yalt in Y as [Y|Y].
    { destruct (sees_directed _ S_forward_directed "-[" "]->" eq_refl ltac:(quiet_tac) ltac:(quiet_tac) _ _ _ Y L) as (p & -> & R & G). destruct p as [r t i]. cbn in R. subst r. cbn [parse_expression].
      intros E. apply JsonFacts.rbind_ok in E as (a & EA & E). injection E as <-. destruct (G a EA) as (toks & (tl & LT & ->) & AT). eexists.
      split; [|apply ANY, AT]. apply say_neighbor, say_forward_directed, LT. }
    apply yalt in Y as [Y|Y].
    { destruct (sees_directed _ S_reverse_directed "<-[" "]-" eq_refl ltac:(apply quiet_shaft; discriminate) ltac:(quiet_tac) _ _ _ Y L) as (p & -> & R & G). destruct p as [r t i]. cbn in R. subst r. cbn [parse_expression].
      intros E. apply JsonFacts.rbind_ok in E as (a & EA & E). injection E as <-. destruct (G a EA) as (toks & (tl & LT & ->) & AT). eexists.
      split; [|apply ANY, AT]. apply say_neighbor, say_reverse_directed, LT. }
    apply yalt in Y as [Y|Y].
    { apply (y_token _ (lit ">")) in Y as (-> & ->); [|reflexivity]. intros [= <-]. exists [lit ">"]. split; [apply say_neighbor, say_forward|].
      apply ANY, adds_quiet. quiet_tac. }
    apply yalt in Y as [Y|Y].
    { apply (y_token _ (lit "<")) in Y as (-> & ->); [|reflexivity]. intros [= <-]. exists [lit "<"]. split; [apply say_neighbor, say_reverse|].
      apply adds_reverse. }
    apply yalt in Y as [Y|Y].
    { apply (y_token _ (lit "~>")) in Y as (-> & ->); [|reflexivity]. intros [= <-]. exists [lit "~>"]. split; [apply say_neighbor, say_recursive|].
      apply ANY, adds_quiet. quiet_tac. }
    apply yalt in Y as [Y|Y].
    { apply ycall in Y as (us & -> & Y). cbn [fst snd selector_rule sub_atomic seen PSeqs] in *.
      apply yseq in Y as (p1 & s1 & p2 & -> & A & Y). cbn [skip] in *. assert (U1 := unblank_le s1).
      assert (A' := A). apply ystr in A' as (-> & ES). assert (L1 : length s1 < length s) by (rewrite ES; cbn; lia).
      apply yseq in Y as (p3 & s3 & p4 & -> & A3 & Y). cbn [skip] in *. assert (L3 := y_le _ _ _ _ _ A3). assert (U3 := unblank_le s3).
      assert (ST := y_identifier_stop _ _ _ _ A3). apply y_identifier in A3 as (n & E3 & N & ->).
      apply yseq in Y as (p5 & s5 & p6 & -> & A5 & Y). cbn [skip] in *. assert (L5 := y_le _ _ _ _ _ A5). assert (U5 := unblank_le s5).
      assert (A5' := A5). apply ystr in A5' as (-> & _).
      apply yseq in Y as (p7 & s7 & p8 & -> & A7 & Y). cbn [skip] in *. assert (Y' := Y). apply ystr in Y' as (-> & _).
      destruct (sees_selector B IH _ _ _ A7) as (p & -> & R & G); [lia|]. cbn [seen app].
      rewrite parse_define_eq; [|reflexivity|exact R]. cbn [p_text]. rewrite (short_from_str _ N). cbn [rbind].
      intros E. apply JsonFacts.rbind_ok in E as (l & M & E). injection E as <-. destruct (G l M) as (tl & LT & AT).
      exists ([lit "$"; n; lit "("] ++ tl ++ [lit ")"]). split; [constructor; [exact N|exact LT]|]. apply ANY.
      refine (tok_adds "$" _ _ _ ([n; lit "("] ++ tl ++ [lit ")"]) any any _ A ltac:(quiet_tac) _ (fun _ H => H)). rewrite E3.
      refine (adds_then ([lit "("] ++ tl ++ [lit ")"]) [n] any any _ _ _ (adds_short n s3 N ST) _ (fun _ H => H)).
      refine (tok_adds "(" _ _ _ (tl ++ [lit ")"]) any any _ A5 ltac:(quiet_tac) _ (fun _ H => H)).
      refine (adds_seq _ any any tl [lit ")"] _ _ _ AT (tok_end ")" _ _ _ Y ltac:(quiet_tac)) _ (fun _ H => H)). intros ts _ ts' K. discriminate K. }
    apply ycall in Y as (us & -> & Y). cbn [fst snd selector_rule sub_atomic seen PSeqs] in *.
    apply yseq in Y as (p1 & s1 & p2 & -> & A & Y). cbn [skip] in *. assert (A' := A). apply ystr in A' as (-> & _).
    apply yseq in Y as (p3 & s3 & p4 & -> & A3 & Y). cbn [skip] in *. assert (Y' := Y). apply ystr in Y' as (-> & _).
    assert (ST := y_identifier_stop _ _ _ _ A3). apply y_identifier in A3 as (n & E3 & N & ->).
    cbn [seen app parse_expression]. unfold parse_variable_get. cbn [p_inner next rbind p_rule p_text].
    rewrite (short_from_str _ N). intros [= <-]. exists [lit "${"; n; lit "}"]. split; [constructor; exact N|]. apply ANY.
    refine (tok_adds "${" _ _ _ [n; lit "}"] any any _ A ltac:(quiet_tac) _ (fun _ H => H)). rewrite E3.
    exact (adds_then [lit "}"] [n] any any _ _ _ (adds_short n s3 N ST) (tok_end "}" _ _ _ Y ltac:(quiet_tac)) (fun _ H => H)).
  Qed.
End Expressions.

(** ** Selectors *)
Lemma selector_read_text f64_parse sel t : parse_selector f64_parse t = Ok sel -> selector_text f64_parse sel t.
Proof.
  unfold parse_selector. generalize (selector_fuel t). intros fuel. unfold parse_rule.
  destruct (run selector_grammar fuel false (PCall S_input) t) as [[[ps s']|]|] eqn:E; [|discriminate|discriminate].
  apply run_yields in E. apply ycall in E as (qs & -> & Y). cbn [fst snd selector_rule sub_atomic seen PSeqs next rbind p_rule p_inner] in *.
  apply yseq in Y as (p1 & s1 & p2 & -> & A & Y). apply ystr in A as (-> & ->). cbn [app skip] in *.
  apply yseq in Y as (p3 & s3 & p4 & -> & A & Y).
  destruct (sees_selector f64_parse _ (sees_expression f64_parse _) _ _ _ A (Nat.lt_succ_diag_r _)) as (p & -> & R & G). cbn [app next rbind]. rewrite R.
  intros E. destruct (G sel E) as (toks & SV & AV). exists toks. split; [exact SV|].
  cbn [skip] in Y. apply ycall in Y as (us & _ & Y). cbn [fst snd selector_rule sub_atomic] in Y. apply yend in Y as (_ & E1 & _).
  apply spaced_unskip. rewrite <- (app_nil_r toks). apply AV; [intros ts' K; discriminate K|].
  apply spaced_unskip. rewrite E1. constructor. constructor.
Qed.
