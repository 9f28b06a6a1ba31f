(** What a parsed selector looks like, and when parsing panics. *)
From Verif.Model Require Import SelectorParse.
From Verif.Spec Require Import IdentitySpec SelectorSpec.
From Verif.Proofs Require Import BaseFacts IdentityFacts PegFacts SelectorGrammarFacts SelectorFacts SelectorSound.


Notation y := (yields selector_grammar).
Notation unblank := (drop_space selector_grammar).
Section Whole.
  Variable f64_parse : str -> Z.
  Variable T : str.
  Notation value_parsed := (value_parsed f64_parse).
  Notation x_ok := (expr_shaped value_parsed).
  Lemma sufx_lt B s1 s ps s' e at_ : sufx T (S B) s -> y at_ e s ps s1 -> length s1 < length s -> s' = skip selector_grammar false s1 -> sufx T B s'.
  Proof.
    intros SX Y L ->. destruct (sufx_skip _ _ false _ (sufx_y _ _ _ _ _ _ _ Y SX)) as [A _]. split; [exact A|]. destruct SX as [_ SX].
    assert (K := drop_space_le selector_grammar s1). cbn [skip]. lia.
  Qed.
  Lemma sufx_weaken B s : sufx T B s -> sufx T (S B) s.
  Proof. intros [A L]. split; [exact A|lia]. Qed.
  Lemma reads_expression : forall B, reads T B S_selector_expression (fun p => good T x_ok (parse_expression f64_parse p)).
  Proof.
    induction B as [|B IH].
    { intros s ps s' Y [_ L]. lia. }
    intros s ps s' Y SX. apply ycall in Y as (qs & -> & Y). cbn [fst snd selector_rule sub_atomic seen PAlts] in *.
    eexists. split; [reflexivity|]. split; [reflexivity|].
    apply yalt in Y as [Y|Y].
    { destruct (good_shape_types T _ _ _ Y) as (p & -> & R & G). destruct p as [r t i]. cbn in R. subst r. cbn [parse_expression].
      apply (good_bind _ _ _ _ _ G). intros; constructor. }
    apply yalt in Y as [Y|Y].
    { destruct (reads_attr f64_parse T _ _ _ _ Y SX) as (p & -> & R & G). destruct p as [r t i]. cbn in R. subst r. cbn [parse_expression].
      apply (good_bind _ _ _ _ _ G). intros; constructor; assumption. }
    apply yalt in Y as [Y|Y].
    { destruct (reads_scoped f64_parse T _ _ _ _ Y SX) as (p & -> & R & G). destruct p as [r t i]. cbn in R. subst r. cbn [parse_expression].
      apply (good_bind _ _ _ _ _ G). intros; constructor; assumption. }
    apply yalt in Y as [Y|Y].
    { apply ycall in Y as (us & -> & Y). cbn [fst snd selector_rule sub_atomic seen PSeqs] in *.
      apply yseq in Y as (p1 & s1 & p2 & -> & A & Y).
      assert (S1 : sufx T B (skip selector_grammar false s1)).
      { refine (sufx_lt _ _ _ _ _ _ _ SX A _ eq_refl). apply ystr in A as (_ & ->). cbn. lia. }
      apply ystr in A as (-> & _).
      apply yseq in Y as (p3 & s3 & p4 & -> & A & Y). assert (S3 := sufx_skip _ _ false _ (sufx_y _ _ _ _ _ _ _ A S1)).
      apply y_identifier in A as (n & _ & N & ->).
      apply yseq in Y as (p5 & s5 & p6 & -> & A & Y). assert (S5 := sufx_skip _ _ false _ (sufx_y _ _ _ _ _ _ _ A S3)). apply ystr in A as (-> & _).
      apply yseq in Y as (p7 & s7 & p8 & -> & A & Y). apply ystr in Y as (-> & _).
      apply ycall in A as (vs & -> & A). cbn [fst snd selector_rule sub_atomic seen app] in *.
      destruct (reads_list _ _ _ _ _ _ _ _ (reads_selector f64_parse T B IH) A S5) as [NE F].
      rewrite parse_function_eq by reflexivity. cbn [p_text]. rewrite (short_from_str _ N). cbn [rbind].
      refine (good_bind _ _ _ _ _ (good_map T (selector_shaped value_parsed) _ vs _) _).
      - eapply Forall_impl; [|exact F]. intros p [R G]. cbv beta. rewrite R. exact G.
      - intros l [L1 L2]. destruct l as [|a l]; [destruct (L2 NE eq_refl)|]. constructor; [exact N|discriminate|exact L1]. }
    apply yalt in Y as [Y|Y].
    { destruct (y_directed f64_parse T _ S_forward_directed "-[" "]->" _ _ _ eq_refl Y SX) as (p & -> & R & G). destruct p as [r t i]. cbn in R. subst r. cbn [parse_expression].
      apply (good_bind _ _ _ _ _ G). intros l L. constructor. exact L. }
    apply yalt in Y as [Y|Y].
    { destruct (y_directed f64_parse T _ S_reverse_directed "<-[" "]-" _ _ _ eq_refl Y SX) as (p & -> & R & G). destruct p as [r t i]. cbn in R. subst r. cbn [parse_expression].
      apply (good_bind _ _ _ _ _ G). intros l L. constructor. exact L. }
    apply yalt in Y as [Y|Y]; [apply (y_token _ (lit ">")) in Y as (-> & _); [|reflexivity]; constructor; exact I|].
    apply yalt in Y as [Y|Y]; [apply (y_token _ (lit "<")) in Y as (-> & _); [|reflexivity]; constructor; exact I|].
    apply yalt in Y as [Y|Y]; [apply (y_token _ (lit "~>")) in Y as (-> & _); [|reflexivity]; constructor; exact I|].
    apply yalt in Y as [Y|Y].
    { apply ycall in Y as (us & -> & Y). cbn [fst snd selector_rule sub_atomic seen PSeqs] in *.
      apply yseq in Y as (p1 & s1 & p2 & -> & A & Y).
      assert (S1 : sufx T B (skip selector_grammar false s1)).
      { refine (sufx_lt _ _ _ _ _ _ _ SX A _ eq_refl). apply ystr in A as (_ & ->). cbn. lia. }
      apply ystr in A as (-> & _).
      apply yseq in Y as (p3 & s3 & p4 & -> & A & Y). assert (S3 := sufx_skip _ _ false _ (sufx_y _ _ _ _ _ _ _ A S1)).
      apply y_identifier in A as (n & _ & N & ->).
      apply yseq in Y as (p5 & s5 & p6 & -> & A & Y). assert (S5 := sufx_skip _ _ false _ (sufx_y _ _ _ _ _ _ _ A S3)). apply ystr in A as (-> & _).
      apply yseq in Y as (p7 & s7 & p8 & -> & A & Y). apply ystr in Y as (-> & _).
      destruct (reads_selector f64_parse T B IH _ _ _ A S5) as (p & -> & R & G). cbn [seen app].
      rewrite parse_define_eq; [|reflexivity|exact R]. cbn [p_text]. rewrite (short_from_str _ N). cbn [rbind].
      apply (good_bind _ _ _ _ _ G). intros l [L1 L2]. constructor; assumption. }
    apply ycall in Y as (us & -> & Y). cbn [fst snd selector_rule sub_atomic seen PSeqs] in *.
    apply yseq in Y as (p1 & s1 & p2 & -> & A & Y). apply ystr in A as (-> & _).
    apply yseq in Y as (p3 & s3 & p4 & -> & A & Y). apply ystr in Y as (-> & _).
    apply y_identifier in A as (n & _ & N & ->). cbn [seen app parse_expression]. unfold parse_variable_get. cbn [p_inner next rbind p_rule p_text].
    rewrite (short_from_str _ N). constructor. exact N.
  Qed.
End Whole.

Lemma parse_good f64_parse T : good T (selector_shaped (value_parsed f64_parse)) (parse_selector f64_parse T).
Proof.
  unfold parse_selector. destruct (parse_total T) as [r TOT]. revert TOT. generalize (selector_fuel T). intros fuel TOT. unfold parse_rule in *.
  destruct (run selector_grammar fuel false (PCall S_input) T) as [[[ps s']|]|] eqn:E.
  - apply run_yields in E. apply ycall in E as (qs & -> & Y). cbn [fst snd selector_rule sub_atomic seen PSeqs next rbind p_rule p_inner] in *.
    apply yseq in Y as (p1 & s1 & p2 & -> & A & Y). 
    assert (SX : sufx T (S (length T)) T) by (split; [exists []; reflexivity|lia]).
    assert (S1 := sufx_skip _ _ false _ (sufx_y _ _ _ _ _ _ _ A SX)). apply ystr in A as (-> & _). cbn [app].
    apply yseq in Y as (p3 & s3 & p4 & -> & A & Y).
    destruct (reads_selector f64_parse T _ (reads_expression f64_parse T _) _ _ _ A S1) as (p & -> & R & G). cbn [app next rbind]. rewrite R. exact G.
  - exact I.
  - discriminate TOT.
Qed.

(** ** Shapes with other values *)
Section Other.
  Variables P Q : sel_value -> Prop.
  Notation here l := (forall v, In v l -> P v -> Q v).
  Lemma other_segments l : here (flat_map segment_values l) -> Forall (segment_shaped P) l -> Forall (segment_shaped Q) l.
  Proof.
    intros H F. rewrite Forall_forall in *. intros p I. specialize (F p I). destruct p as [v|n]; [|exact F]. cbn in *. apply H; [|exact F].
    apply in_flat_map. exists (PsValue v). split; [exact I|left; reflexivity].
  Qed.
  Lemma other_key k : here (key_values k) -> key_shaped P k -> key_shaped Q k.
  Proof. intros H [A B]. split; [exact A|]. apply other_segments; assumption. Qed.
  Lemma other_sv v : here (scoped_value_values v) -> scoped_value_shaped P v -> scoped_value_shaped Q v.
  Proof. destruct v as [v|p]; cbn; intros H S; [apply H; auto|]. destruct S as [A B]. split; [exact A|]. apply other_segments; assumption. Qed.
  Lemma other_assertion a : here (assertion_values a) -> assertion_shaped P a -> assertion_shaped Q a.
  Proof.
    unfold assertion_values. intros H (A & B & C & D). split; [apply other_sv; [|exact A]; intros; apply H; auto using in_or_app|].
    split; [exact B|]. split; [exact C|]. rewrite Forall_forall in *. intros v I. apply other_sv; [|auto].
    intros w W. apply H, in_or_app. right. apply in_flat_map. eauto.
  Qed.
  Lemma other_expr x : here (expr_values x) -> expr_shaped P x -> expr_shaped Q x.
  Proof.
    induction x as [t|a|s|n|n args IH|n sel IH|n] using expr_ind'; intros H OK; inversion OK; subst; clear OK; cbn [expr_values] in H.
    - constructor.
    - constructor. match goal with Z : attribute_shaped P a |- _ => destruct Z as [K C] end. split; [apply other_key; [|exact K]; intros; apply H; auto using in_or_app|].
      destruct (at_comparison a) as [c|]; [|exact I]. destruct C as (C1 & C2 & C3). split; [exact C1|]. split; [exact C2|].
      rewrite Forall_forall in *. intros v V. apply H; [|auto]. apply in_or_app. auto.
    - constructor. match goal with Z : scoped_shaped P s |- _ => destruct Z as (K & NE & C) end. split; [|split; [exact NE|]].
      + destruct (sc_key s) as [k|]; [|exact I]. apply other_key; [|exact K]. intros; apply H; auto using in_or_app.
      + rewrite Forall_forall in *. intros v V. apply other_assertion; [|auto]. intros w W. apply H, in_or_app. right. apply in_flat_map. eauto.
    - constructor. assumption.
    - constructor; [assumption|assumption|]. rewrite Forall_forall in *. intros sel I.
      match goal with K : forall x, In x args -> _ /\ _ |- _ => destruct (K sel I) as [NE F] end. split; [exact NE|].
      specialize (IH sel I). rewrite Forall_forall in *. intros x X. apply IH; [exact X| |auto].
      intros v V. apply H. apply in_flat_map. exists sel. split; [exact I|]. apply in_flat_map. eauto.
    - constructor; [assumption|assumption|]. rewrite Forall_forall in *. intros x X. apply IH; [exact X| |auto].
      intros v V. apply H. apply in_flat_map. eauto.
    - constructor. assumption.
  Qed.
  Lemma other_selector s : here (selector_values s) -> selector_shaped P s -> selector_shaped Q s.
  Proof.
    intros H [NE F]. split; [exact NE|]. rewrite Forall_forall in *. intros x X. apply other_expr; [|auto].
    intros v V. apply H. apply in_flat_map. eauto.
  Qed.
End Other.
Lemma faithful_printable f64_str f64_parse sel :
  (forall v, In v (selector_values sel) -> value_faithful f64_str f64_parse v) ->
  selector_shaped (value_parsed f64_parse) sel -> printable f64_str f64_parse sel.
Proof.
  intros H. apply other_selector. intros v V P. specialize (H v V). destruct v as [s|[n|b]|n|id]; cbn in *; tauto.
Qed.
Lemma printable_parsed f64_str f64_parse sel :
  printable f64_str f64_parse sel -> selector_shaped (value_parsed f64_parse) sel.
Proof.
  apply other_selector. intros v _ P. destruct v as [s|[n|b]|n|id]; cbn in *; try tauto.
  destruct P as [D E]. exists (f64_str b), []. rewrite app_nil_r. auto.
Qed.
