(** Every text of a selector is read as that selector. *)
From Verif.Model Require Import SelectorParse.
From Verif.Spec Require Import IdentitySpec SelectorSpec SelectorTextSpec.
From Verif.Proofs Require Import BaseFacts IdentityFacts PegFacts SelectorGrammarFacts SelectorFacts.
From Verif.Proofs Require SelectorSound.

Notation unblank := (drop_space selector_grammar).

(** ** Blanks *)
Lemma blank_space c : blank c <-> selector_space c = true.
Proof.
  unfold blank, selector_space. rewrite !orb_true_iff, !Ascii.eqb_eq. tauto.
Qed.
Lemma unblank_blanks b s : Forall blank b -> unblank (b ++ s) = unblank s.
Proof.
  induction 1 as [|c b C B IH]; [reflexivity|]. cbn [app drop_space]. apply blank_space in C. cbn [g_space selector_grammar]. rewrite C. exact IH.
Qed.
Definition solid (t : str) : Prop := exists c r, t = c :: r /\ ~ blank c.
Definition ready (ts : list str) : Prop := match ts with [] => True | t :: _ => solid t end.
Lemma unblank_solid t s : solid t -> unblank (t ++ s) = t ++ s.
Proof.
  intros (c & r & -> & B). cbn [app drop_space g_space selector_grammar]. destruct (selector_space c) eqn:E; [|reflexivity].
  destruct B. apply blank_space, E.
Qed.
Lemma solid_char c r : selector_space c = false -> solid (c :: r).
Proof. intros E. exists c, r. split; [reflexivity|]. rewrite blank_space, E. discriminate. Qed.
Definition apart (t : str) (ts : list str) (s : str) : Prop :=
  forall t' ts', ts = t' :: ts' -> needs_blank t t' -> exists c s', s = c :: s' /\ blank c.
Lemma spaced_nil s : spaced [] s -> unblank s = [].
Proof. intros H. inversion H as [b B E1 E2|]; subst. rewrite <- (app_nil_r s). rewrite unblank_blanks by assumption. reflexivity. Qed.
Lemma spaced_nil_blanks s : spaced [] s -> Forall blank s.
Proof. intros H. inversion H; subst. assumption. Qed.
Lemma spaced_cons t ts s : spaced (t :: ts) s -> exists b s', Forall blank b /\ s = b ++ t ++ s' /\ spaced ts s' /\ apart t ts s'.
Proof. intros H. inversion H; subst. eexists. eexists. split; [eassumption|]. split; [reflexivity|]. split; assumption. Qed.
Lemma spaced_head t ts s : solid t -> spaced (t :: ts) s -> exists s', unblank s = t ++ s' /\ spaced ts s' /\ apart t ts s'.
Proof.
  intros S H. apply spaced_cons in H as (b & s' & B & -> & H & A). exists s'. rewrite unblank_blanks by exact B.
  rewrite unblank_solid by exact S. auto.
Qed.
Lemma unblank_twice s : unblank (unblank s) = unblank s.
Proof.
  induction s as [|c s IH]; [reflexivity|]. cbn [drop_space]. destruct (g_space selector_grammar c) eqn:E; [exact IH|].
  cbn [drop_space]. rewrite E. reflexivity.
Qed.

(** ** What stands at the start of the text *)
(** The text is empty, starts with a blank or with the next token. *)
Lemma spaced_first ts s : ready ts -> spaced ts s ->
  s = [] \/ (exists c s', s = c :: s' /\ blank c) \/ exists t ts' s', ts = t :: ts' /\ s = t ++ s'.
Proof.
  intros R H. destruct ts as [|t ts].
  - apply spaced_nil_blanks in H. destruct s as [|c s]; [auto|]. inversion H; subst. right. left. eauto.
  - apply spaced_cons in H as (b & s' & B & -> & H & A). destruct b as [|c b]; [right; right; exists t, ts, s'; split; reflexivity|].
    inversion B; subst. right. left. eexists. eexists. split; [reflexivity|assumption].
Qed.
Lemma stop_not_word c s : word c = false -> stop (c :: s).
Proof.
  intros W. unfold word, is_alpha, is_upper, is_lower in W. apply orb_false_iff in W as [W U]. apply orb_false_iff in W as [W D]. apply orb_false_iff in W as [L1 L2].
  assert (K : forall lo hi, (hi < 128)%N -> in_range lo hi c = false -> ev true (PRange lo hi) (c :: s) None).
  { intros lo hi B R. apply ev_range_fail. intros n s' E. destruct (N.ltb_spec n 128) as [L|L]; [|right; lia].
    apply SelectorSound.decode1_ascii in E as (d & E & <-); [|exact L]. injection E as <- _. unfold in_range in R.
    apply andb_false_iff in R. rewrite !N.leb_gt in R. exact R. }
  unfold stop, ident_char. cbn [PAlts].
  apply ev_alt2; [apply ev_alt2; apply K; (reflexivity || assumption)|]. apply ev_alt2; [apply K; (reflexivity || assumption)|].
  apply ev_str_fail. rewrite Ascii.eqb_sym in U. cbn [lit list_ascii_of_string strip_prefix]. rewrite U. reflexivity.
Qed.
Lemma blank_not_word c : blank c -> word c = false.
Proof. intros [-> | [-> | ->]]; reflexivity. Qed.
Lemma word_name_part c : word c = true -> name_part c.
Proof.
  unfold word, name_part. rewrite !orb_true_iff, Ascii.eqb_eq. tauto.
Qed.
Lemma name_stop n ts s : (exists c r, n = c :: r /\ name_start c) -> ready ts -> spaced ts s -> apart n ts s -> stop s.
Proof.
  intros (c & r & -> & N) R H A. destruct (spaced_first ts s R H) as [-> | [(d & s' & -> & D)|(t & ts' & s' & -> & ->)]].
  - ev_compute.
  - apply stop_not_word, blank_not_word, D.
  - destruct R as (d & r' & -> & D). cbn [app]. destruct (word d) eqn:W; [|apply stop_not_word, W].
    exfalso. destruct (A _ _ eq_refl) as (x & y & E & B).
    + left. exists c, r, d, r'. repeat (split; [auto|]). apply word_name_part, W.
    + injection E as <- _. contradiction.
Qed.
Lemma short_name_start n : short_identifier n -> exists c r, n = c :: r /\ name_start c.
Proof. intros S. destruct (short_head n S) as (c & r & -> & A). exists c, r. auto. Qed.
Lemma name_start_solid n : (exists c r, n = c :: r /\ name_start c) -> solid n.
Proof. intros (c & r & -> & [A | ->]); apply solid_char; [|reflexivity]. all_chars c; try discriminate A; reflexivity. Qed.
Lemma short_solid n : short_identifier n -> solid n.
Proof. intros S. apply name_start_solid, short_name_start, S. Qed.

(** ** Recognising tokens *)
Definition acc (e : pexp srule) (toks : list str) (F : list str -> Prop) (P : list spair -> Prop) : Prop :=
  forall ts s, F ts -> spaced (toks ++ ts) s ->
    exists ps r s', ev false e (unblank s) (Some (ps, r)) /\ spaced ts s' /\ unblank r = unblank s' /\ P ps.
Definition rej (e : pexp srule) (toks : list str) (F : list str -> Prop) : Prop :=
  forall ts s, F ts -> spaced (toks ++ ts) s -> ev false e (unblank s) None.
Definition both (P Q : list spair -> Prop) (ps : list spair) : Prop := exists a b, ps = a ++ b /\ P a /\ Q b.
Definition none (ps : list spair) : Prop := ps = [].
Definition one (q : srule) (P : spair -> Prop) (ps : list spair) : Prop := exists p, ps = [p] /\ p_rule p = q /\ P p.
Definition any (_ : list str) : Prop := True.

Lemma acc_tok x F : solid (lit x) -> acc (tok x) [lit x] F none.
Proof.
  intros S ts s _ H. cbn [app] in H. apply spaced_head in H as (s' & E & H & _); [|exact S]. rewrite E.
  exists [], s', s'. split; [apply ev_str|]. split; [exact H|]. split; reflexivity.
Qed.
Lemma acc_seq a b t1 t2 F1 F2 (F : list str -> Prop) P1 P2 : acc a t1 F1 P1 -> acc b t2 F2 P2 ->
  (forall ts, F ts -> F1 (t2 ++ ts)) -> (forall ts, F ts -> F2 ts) -> acc (PSeq a b) (t1 ++ t2) F (both P1 P2).
Proof.
  intros A B H1 H2 ts s HF H. rewrite <- app_assoc in H.
  destruct (A _ _ (H1 _ HF) H) as (ps & r & s1 & E1 & S1 & U1 & Q1).
  destruct (B _ _ (H2 _ HF) S1) as (qs & r2 & s2 & E2 & S2 & U2 & Q2).
  exists (ps ++ qs), r2, s2. split; [|split; [exact S2|split; [exact U2|exists ps, qs; auto]]].
  refine (ev_seq _ _ _ _ _ _ _ _ _ E1 _). cbn [skip]. rewrite U1. exact E2.
Qed.
Lemma acc_tok_seq x b t2 F2 (F : list str -> Prop) P2 : solid (lit x) -> acc b t2 F2 P2 -> (forall ts, F ts -> F2 ts) ->
  acc (PSeq (tok x) b) (lit x :: t2) F P2.
Proof.
  intros S B H ts s HF HS. destruct (acc_seq (tok x) b [lit x] t2 any F2 F none P2 (acc_tok _ _ S) B (fun _ _ => I) H ts s HF HS)
    as (ps & r & s' & E & S' & U & (u & v & -> & N & Q)). unfold none in N. subst u. exists v, r, s'. auto.
Qed.
Lemma acc_seq_tok a x t1 (F1 F : list str -> Prop) P : solid (lit x) -> acc a t1 F1 P -> (forall ts, F1 (lit x :: ts)) ->
  acc (PSeq a (tok x)) (t1 ++ [lit x]) F P.
Proof.
  intros S A H ts s HF HS. destruct (acc_seq a (tok x) t1 [lit x] F1 any F P none A (acc_tok _ _ S) (fun ts _ => H ts) (fun _ _ => I) ts s HF HS)
    as (ps & r & s' & E & S' & U & (u & v & -> & Q & N)). unfold none in N. subst v. rewrite app_nil_r in E. exists u, r, s'. auto.
Qed.
Lemma acc_opt e toks F P : acc e toks F P -> acc (POpt e) toks F P.
Proof.
  intros A ts s HF H. destruct (A _ _ HF H) as (ps & r & s' & E & Q). exists ps, r, s'. split; [apply ev_opt1, E|exact Q].
Qed.
Lemma acc_opt_none e F : rej e [] F -> acc (POpt e) [] F none.
Proof.
  intros A ts s HF H. exists [], (unblank s), s. split; [apply ev_opt2, (A _ _ HF H)|]. split; [exact H|]. split; [apply unblank_twice|reflexivity].
Qed.
Lemma acc_alt1 a b toks F P : acc a toks F P -> acc (PAlt a b) toks F P.
Proof.
  intros A ts s HF H. destruct (A _ _ HF H) as (ps & r & s' & E & Q). exists ps, r, s'. split; [apply ev_alt1, E|exact Q].
Qed.
Lemma acc_alt2 a b toks F P : rej a toks F -> acc b toks F P -> acc (PAlt a b) toks F P.
Proof.
  intros N A ts s HF H. destruct (A _ _ HF H) as (ps & r & s' & E & Q). exists ps, r, s'. split; [apply ev_alt2; [apply (N _ _ HF H)|exact E]|exact Q].
Qed.
Lemma acc_call q toks F P : fst (selector_rule q) = Normal -> acc (snd (selector_rule q)) toks F P ->
  acc (call q) toks F (one q (fun p => P (p_inner p))).
Proof.
  intros K A ts s HF H. destruct (A _ _ HF H) as (ps & r & s' & E & S & U & Q).
  assert (R := ev_rule_any false q (unblank s) r ps). rewrite K in R. specialize (R E). cbn [seen] in R.
  exists [Pair q (taken (unblank s) r) ps], r, s'. split; [exact R|]. split; [exact S|]. split; [exact U|]. eexists. split; [reflexivity|]. auto.
Qed.
Lemma acc_weaken e toks (F F' : list str -> Prop) (P P' : list spair -> Prop) : acc e toks F P -> (forall ts, F' ts -> F ts) ->
  (forall ps, P ps -> P' ps) -> acc e toks F' P'.
Proof.
  intros A HF HP ts s X H. destruct (A _ _ (HF _ X) H) as (ps & r & s' & E & S & U & Q). exists ps, r, s'. auto.
Qed.
(** Refusing what starts with a known token. *)
Lemma rej_tok e x toks F : solid (lit x) -> (forall s', ev false e (lit x ++ s') None) -> rej e (lit x :: toks) F.
Proof.
  intros S N ts s _ H. cbn [app] in H. apply spaced_head in H as (s' & E & _); [|exact S]. rewrite E. apply N.
Qed.
Lemma rej_name e n toks F : short_identifier n -> (forall c s', name_start c -> ev false e (c :: s') None) -> rej e (n :: toks) F.
Proof.
  intros S N ts s _ H. cbn [app] in H. apply spaced_head in H as (s' & E & _); [|apply short_solid, S]. rewrite E.
  destruct (short_name_start n S) as (c & r & -> & C). cbn [app]. apply N, C.
Qed.
Lemma rej_at e x (F : list str -> Prop) : solid (lit x) -> (forall s', ev false e (lit x ++ s') None) -> (forall ts, F ts -> exists ts', ts = lit x :: ts') ->
  rej e [] F.
Proof.
  intros S N HF ts s X H. destruct (HF _ X) as (ts' & ->). apply (rej_tok e x [] (fun l => l = ts') S N ts' s eq_refl H).
Qed.

(** ** Names *)
Lemma acc_name n : short_identifier n -> acc (call S_identifier) [n] ready (fun ps => ps = [Pair S_identifier n []]).
Proof.
  intros S ts s R H. cbn [app] in H. apply spaced_head in H as (s' & E & H & A); [|apply short_solid, S]. rewrite E.
  eexists. exists s', s'. split; [|split; [exact H|split; [reflexivity|]]].
  - apply (ev_identifier false n s' S). exact (name_stop n ts s' (short_name_start n S) R H A).
  - reflexivity.
Qed.

(** ** Lists *)
Section Lists.
  Context {X : Type}.
  Variables (item : X -> list str -> Prop) (sep : string) (q : srule) (R : X -> spair -> Prop).
  Variables (Fi F : list str -> Prop).
  Hypothesis sep_solid : solid (lit sep).
  Hypothesis items : forall x tx, item x tx -> acc (call q) tx Fi (one q (R x)).
  Hypothesis sep_follows : forall ts, Fi (lit sep :: ts).
  Hypothesis follows : forall ts, F ts -> Fi ts.
  Hypothesis sep_ends : rej (tok sep) [] F.
  Inductive tail : list X -> list str -> Prop :=
  | tail_nil : tail [] []
  | tail_cons x tx l tl : item x tx -> tail l tl -> tail (x :: l) ([lit sep] ++ tx ++ tl).
  Lemma listed_tail l toks : listed item sep l toks -> exists x l' tx tl, l = x :: l' /\ toks = tx ++ tl /\ item x tx /\ tail l' tl.
  Proof.
    induction 1 as [x ts I|x l ts ts' I L (y & l' & tx & tl & -> & -> & J & T)].
    - exists x, [], ts, []. rewrite app_nil_r. repeat (split; [auto|]). constructor.
    - exists x, (y :: l'), ts, ([lit sep] ++ tx ++ tl). repeat (split; [auto|]). constructor; assumption.
  Qed.
  Lemma tail_follows l tl ts : tail l tl -> F ts -> Fi (tl ++ ts).
  Proof. intros [|x tx l' tl' I T] HF; [apply follows, HF|apply sep_follows]. Qed.
  Lemma acc_tail l tl : tail l tl -> forall ts s r0, F ts -> spaced (tl ++ ts) s -> unblank r0 = unblank s ->
    exists ps r s', ev false (PMore (PSeq (tok sep) (call q))) r0 (Some (ps, r)) /\ spaced ts s' /\ unblank r = unblank s'
      /\ Forall2 (fun x p => p_rule p = q /\ R x p) l ps.
  Proof.
    induction 1 as [|x tx l tl I T IH]; intros ts s r0 HF H E0.
    - exists [], r0, s. split; [|split; [exact H|split; [exact E0|constructor]]].
      apply ev_more_nil. cbn [skip]. rewrite E0. apply ev_seq_fail1. apply (sep_ends ts s HF H).
    - rewrite <- !app_assoc in H.
      destruct (acc_tok_seq sep (call q) tx Fi (fun ts' => ts' = tl ++ ts) (one q (R x)) sep_solid (items x tx I)) with (ts := tl ++ ts) (s := s)
        as (ps & r & s' & E & S & U & (p & -> & RP & P)); [intros ts' ->; eapply tail_follows; eauto|reflexivity|exact H|].
      destruct (IH ts s' r HF S U) as (ps & r2 & s2 & E2 & S2 & U2 & P2).
      exists ([p] ++ ps), r2, s2. split; [|split; [exact S2|split; [exact U2|constructor; auto]]].
      refine (ev_more_cons _ _ _ _ _ _ _ _ _ E2). cbn [skip]. rewrite E0. exact E.
  Qed.
  Lemma acc_list l toks : listed item sep l toks ->
    acc (list_of sep (call q)) toks F (fun ps => Forall2 (fun x p => p_rule p = q /\ R x p) l ps).
  Proof.
    intros L ts s HF H. apply listed_tail in L as (x & l' & tx & tl & -> & -> & I & T). rewrite <- app_assoc in H.
    destruct (items x tx I (tl ++ ts) s (tail_follows _ _ _ T HF) H) as (ps & r & s' & E & S & U & (p & -> & RP & P)).
    destruct (acc_tail l' tl T ts s' r HF S U) as (ps & r2 & s2 & E2 & S2 & U2 & P2).
    destruct (star_of_more _ _ _ _ E2) as (r3 & E3 & U3).
    exists ([p] ++ ps), r3, s2. split; [|split; [exact S2|split; [congruence|constructor; auto]]].
    exact (ev_seq _ _ _ _ _ _ _ _ _ E E3).
  Qed.
End Lists.

(** ** Values *)
Definition value_end : list str :=
  map lit ["]"; ","; "|"; "}"; ")"; ":"; "&&"; "i"; "="; "!="; "^="; "$="; "*="; "?="; ">"; "<"; "{=}"; "{!=}"; "{<}"; "{<<}"]%string.
Definition vfollow (ts : list str) : Prop := match ts with [] => True | t :: _ => In t value_end end.
Definition calm_char (c : ascii) : bool := existsb (Ascii.eqb c) (ascii_of_N 9 :: ascii_of_N 10 :: lit " ],|}):&i=!^$*?><{").
Definition calm (s : str) : Prop := match s with c :: _ => calm_char c = true | [] => True end.
Lemma value_end_head t : In t value_end -> exists c r, t = c :: r /\ calm_char c = true /\ selector_space c = false.
Proof.
  intros I. unfold value_end in I. cbn [map In] in I.
  repeat (destruct I as [<-|I]; [eexists; eexists; split; [reflexivity|split; reflexivity]|]). destruct I.
Qed.
Lemma vfollow_ready ts : vfollow ts -> ready ts.
Proof. destruct ts as [|t ts]; [auto|]. intros I. apply value_end_head in I as (c & r & -> & _ & S). apply solid_char, S. Qed.
Lemma vfollow_calm ts s : vfollow ts -> spaced ts s -> calm s.
Proof.
  intros V H. destruct (spaced_first ts s (vfollow_ready _ V) H) as [-> | [(d & s' & -> & D)|(t & ts' & s' & -> & ->)]].
  - exact I.
  - destruct D as [-> | [-> | ->]]; reflexivity.
  - apply value_end_head in V as (c & r & -> & C & _). exact C.
Qed.
Ltac calm_cases C := match type of C with calm ?s =>
  destruct s as [|?c ?u]; [ev_compute|match type of C with calm (?c :: _) => change (calm_char c = true) in C; exists 60; all_chars c; try discriminate C; reflexivity end] end.
Lemma calm_digit s : calm s -> ev true ASCII_DIGIT s None. Proof. intros C. calm_cases C. Qed.
Lemma calm_exp s : calm s -> ev true (POpt (call S_exp)) s (Some ([], s)). Proof. intros C. apply ev_opt2. calm_cases C. Qed.
Lemma calm_fraction s : calm s -> ev true (POpt (call S_fraction)) s (Some ([], s)). Proof. intros C. apply ev_opt2. calm_cases C. Qed.
Lemma calm_dot s : calm s -> ev true (tok ".") s None. Proof. intros C. calm_cases C. Qed.
Lemma calm_hash s : calm s -> ev true (PSeq (tok "#") (call S_identifier)) s None. Proof. intros C. calm_cases C. Qed.

Lemma number_int sign n rest : sign = [] \/ sign = lit "-" -> whole n -> calm rest ->
  ev false (call S_number) ((sign ++ n) ++ rest) (Some ([Pair S_number (sign ++ n) []], rest)).
Proof.
  intros S W C. refine (ev_rule _ S_number _ [] rest _). cbn [sub_atomic fst snd selector_rule PSeqs].
  rewrite <- app_assoc. refine (ev_seq _ _ _ _ _ [] (n ++ rest) [] rest (ev_sign _ _ _ S W) _). cbn [skip].
  refine (ev_seq _ _ _ _ _ [] rest [] rest (ev_whole _ _ W (calm_digit _ C)) _). cbn [skip].
  refine (ev_seq _ _ _ _ _ [] rest [] rest (calm_fraction _ C) _). cbn [skip]. apply calm_exp, C.
Qed.
Lemma ev_digits d rest : d <> [] -> all_digits d -> ev true ASCII_DIGIT rest None -> ev true (PPlus ASCII_DIGIT) (d ++ rest) (Some ([], rest)).
Proof.
  intros NE D FD. destruct d as [|c d]; [congruence|]. inversion D as [|c0 f0 C D']; subst.
  exact (ev_seq _ _ _ _ _ _ _ _ _ (ev_digit true c (d ++ rest) C) (ev_chars _ _ d rest (fun c s H => ev_digit true c s H) FD D')).
Qed.
Lemma ev_exponent e rest : exponent e -> calm rest -> ev true (call S_exp) (e ++ rest) (Some ([], rest)).
Proof.
  intros (c & sg & d & -> & C & S & NE & D) R. refine (ev_rule true S_exp _ [] rest _). cbn [sub_atomic fst snd selector_rule PSeqs app].
  rewrite <- app_assoc.
  refine (ev_seq _ _ _ _ _ [] (sg ++ d ++ rest) [] rest _ _); [destruct C as [-> | ->]; ev_compute|]. cbn [skip].
  refine (ev_seq _ _ _ _ _ [] (d ++ rest) [] rest _ (ev_digits d rest NE D (calm_digit _ R))).
  destruct S as [-> | [-> | ->]]; [|apply ev_opt1; ev_compute|apply ev_opt1; ev_compute].
  apply ev_opt2. destruct d as [|x d]; [congruence|]. inversion D as [|x0 d0 X D']; subst. cbn [app].
  exists 10. all_chars x; try discriminate X; reflexivity.
Qed.
Lemma number_decimal t e rest : decimal t -> (e = [] \/ exponent e) -> calm rest ->
  ev false (call S_number) ((t ++ e) ++ rest) (Some ([Pair S_number (t ++ e) []], rest)).
Proof.
  intros (sign & n & frac & -> & S & W & NE & D) EX C.
  refine (ev_rule _ S_number _ [] rest _). cbn [sub_atomic fst snd selector_rule PSeqs].
  rewrite <- !app_assoc. refine (ev_seq _ _ _ _ _ [] (n ++ _) [] rest (ev_sign _ _ _ S W) _). cbn [skip].
  refine (ev_seq _ _ _ _ _ [] _ [] rest (ev_whole _ (("."%char :: frac) ++ e ++ rest) W _) _); [ev_compute|]. cbn [skip].
  assert (FD : ev true ASCII_DIGIT (e ++ rest) None).
  { destruct EX as [-> | (c & sg & d & -> & K & _)]; [apply calm_digit, C|]. destruct K as [-> | ->]; ev_compute. }
  refine (ev_seq _ _ _ _ _ [] (e ++ rest) [] rest _ _).
  - apply ev_opt1. refine (ev_rule _ S_fraction _ [] (e ++ rest) _). cbn [sub_atomic fst snd selector_rule PSeqs app].
    refine (ev_seq _ _ _ _ _ [] (frac ++ e ++ rest) [] _ _ _); [ev_compute|]. cbn [skip]. apply ev_digits; assumption.
  - cbn [skip]. destruct EX as [-> | EX]; [apply calm_exp, C|]. apply ev_opt1, ev_exponent; assumption.
Qed.
Lemma ev_single_char s c s' : decode1 s = Some (c, s') -> (32 <= c)%N -> c <> 39%N -> c <> 92%N -> (c <= 1114111)%N ->
  ev true (call S_single_quoted_char) s (Some ([], s')).
Proof.
  intros D A B C E. refine (ev_rule_any true S_single_quoted_char s s' [] _). cbn [sub_atomic fst snd selector_rule PSeqs PAlts].
  destruct (N.leb_spec c 38).
  - apply ev_alt1. apply (ev_range _ _ _ _ _ c); [exact D|lia].
  - apply ev_alt2; [apply ev_range_fail; intros c0 s0 E0; rewrite D in E0; injection E0 as <- <-; lia|].
    destruct (N.leb_spec c 91).
    + apply ev_alt1. apply (ev_range _ _ _ _ _ c); [exact D|lia].
    + apply ev_alt2; [apply ev_range_fail; intros c0 s0 E0; rewrite D in E0; injection E0 as <- <-; lia|].
      apply (ev_range _ _ _ _ _ c); [exact D|lia].
Qed.
Lemma ev_text_single s rest : s <> [] -> quotable 39 s ->
  ev false (call S_text) ((lit "'" ++ s ++ lit "'") ++ rest)
    (Some ([Pair S_text (lit "'" ++ s ++ lit "'") [Pair S_single_quoted_text (lit "'" ++ s ++ lit "'") []]], rest)).
Proof.
  intros NE Q. refine (ev_rule _ S_text _ _ rest _). cbn [sub_atomic fst snd selector_rule PSeqs].
  apply ev_alt1. refine (ev_rule _ S_single_quoted_text _ [] rest _). cbn [sub_atomic fst snd selector_rule PSeqs].
  assert (L : forall t, quotable 39 t -> ev true (PStar (call S_single_quoted_char)) (t ++ lit "'" ++ rest) (Some ([], lit "'" ++ rest))).
  { intros t T. induction T as [|t c t' D A B C E T IH]; [apply ev_star_nil; ev_compute|].
    exact (ev_star_cons _ _ _ _ _ _ _ _ (ev_single_char _ _ _ (decode1_app _ _ _ _ D) A B C E) (ev_more_atomic _ _ _ _ IH)). }
  rewrite <- !app_assoc. refine (ev_seq _ _ _ _ _ [] (s ++ lit "'" ++ rest) [] rest (ev_str _ _ _ _) _). cbn [skip].
  refine (ev_seq _ _ _ _ _ [] (lit "'" ++ rest) [] rest _ _); [|cbn [skip]; apply ev_str].
  inversion Q as [|t c t' D A B C E T]; subst; [congruence|].
  exact (ev_seq _ _ _ _ _ _ _ _ _ (ev_single_char _ _ _ (decode1_app _ _ _ _ D) A B C E) (L _ T)).
Qed.

Section Values.
  Variable f64_parse : str -> Z.
  Notation parse_value := (parse_value f64_parse).
  Notation value_token := (value_token f64_parse).

  Lemma decimal_head t rest : decimal t -> ev false (call S_text) (t ++ rest) None.
  Proof.
    intros (sign & w & fr & -> & S & W & _). assert (Q := number_head sign w (("."%char :: fr) ++ rest) S W).
    rewrite <- !app_assoc in *. exact Q.
  Qed.
  Lemma number_solid sign w r : sign = [] \/ sign = lit "-" -> whole w -> solid (sign ++ w ++ r).
  Proof.
    intros [-> | ->] W; [|apply solid_char; reflexivity]. destruct W as [-> | (c & u & -> & C & _)]; [apply solid_char; reflexivity|].
    apply solid_char. all_chars c; try discriminate C; reflexivity.
  Qed.
  Lemma join_head ids : ids <> [] -> Forall short_identifier ids -> exists x r, join (lit ".") ids = x ++ r /\ short_identifier x.
  Proof. intros NE F. destruct ids as [|x l]; [congruence|]. inversion F; subst. change (lit ".") with ["."%char]. rewrite join_dotted. eauto. Qed.
  Lemma value_solid v t : value_token v t -> solid t.
  Proof.
    intros V. destruct V as [s NE Q|s NE Q|n w W E B|n w W E B|b t e D EX E|n S|ids n NE F S].
    - apply solid_char; reflexivity.
    - apply solid_char; reflexivity.
    - rewrite <- (app_nil_r w). apply (number_solid []); auto.
    - rewrite <- (app_nil_r w). apply (number_solid (lit "-")); auto.
    - destruct D as (sign & w & fr & -> & S & W & _). rewrite <- !app_assoc. apply number_solid; assumption.
    - apply short_solid, S.
    - destruct (join_head ids NE F) as (x & r & -> & X). rewrite <- app_assoc. destruct (short_solid x X) as (c & u & -> & B). exists c. eexists. split; [reflexivity|exact B].
  Qed.
  Lemma parse_text q s i : parse_value (Pair S_value (q :: s ++ [q]) [Pair S_text (q :: s ++ [q]) i]) = Ok (SvText s).
  Proof.
    unfold SelectorParse.parse_value. cbn [p_inner next rbind p_rule p_text]. do 2 f_equal. cbn [skipn length]. rewrite app_length. cbn [length].
    replace (S (length s + 1) - 2) with (length s + 0) by lia. rewrite firstn_app_2. cbn [firstn]. apply app_nil_r.
  Qed.
  Lemma i64_positive w : whole w -> (digits_value w <= 9223372036854775807)%Z -> i64_from_str w = Some (digits_value w).
  Proof.
    intros W B. rewrite (i64_of_whole w W). cbv zeta. change (fold_left dec_step w 0%Z) with (digits_value w).
    assert (P := SelectorSound.fold_nonneg w (whole_digits _ W) 0%Z ltac:(lia)). change (fold_left dec_step w 0%Z) with (digits_value w) in P.
    replace ((i64_min <=? digits_value w) && (digits_value w <=? i64_max))%Z with true; [reflexivity|].
    symmetry. apply andb_true_iff. split; apply Z.leb_le; unfold i64_min, i64_max; lia.
  Qed.
  Lemma i64_minus c w : i64_from_str ("-"%char :: c :: w) =
    match digits_val (c :: w) 0 with
    | Some z => if ((i64_min <=? - z) && (- z <=? i64_max))%Z then Some (- z)%Z else None
    | None => None end.
  Proof. unfold i64_from_str. destruct (digits_val (c :: w) 0); reflexivity. Qed.
  Lemma i64_negative w : whole w -> (-9223372036854775808 <= - digits_value w)%Z -> i64_from_str (lit "-" ++ w) = Some (- digits_value w)%Z.
  Proof.
    intros W B. assert (D := whole_digits _ W). assert (P := SelectorSound.fold_nonneg w D 0%Z ltac:(lia)).
    change (fold_left dec_step w 0%Z) with (digits_value w) in P.
    assert (DV := digits_val_fold w D 0%Z). change (fold_left dec_step w 0%Z) with (digits_value w) in DV.
    destruct w as [|c w]; [destruct (whole_nonempty _ W eq_refl)|]. change (lit "-" ++ c :: w) with ("-"%char :: c :: w).
    rewrite i64_minus, DV. 
    replace ((i64_min <=? - digits_value (c :: w)) && (- digits_value (c :: w) <=? i64_max))%Z with true; [reflexivity|].
    symmetry. apply andb_true_iff. split; apply Z.leb_le; unfold i64_min, i64_max; lia.
  Qed.
  Lemma no_dot_int sign w : sign = [] \/ sign = lit "-" -> whole w -> existsb (Ascii.eqb ".") (sign ++ w) = false.
  Proof. intros [-> | ->] W; rewrite existsb_app, (no_dot _ (whole_digits _ W)); reflexivity. Qed.
  Lemma value_match v t rest : value_token v t -> calm rest ->
    ((exists c r, t = c :: r /\ name_start c) -> stop rest) ->
    exists p, matched S_value t rest p /\ parse_value p = Ok v.
  Proof.
    intros V C ST. destruct V as [s NE Q|s NE Q|n w W E B|n w W E B|b t e D EX E|n S|ids n NE F S].
    - eexists. split; [split; [|refine (ev_rule false S_value _ _ rest _); cbn [sub_atomic fst snd selector_rule PAlts]; apply ev_alt1; apply ev_text_single; assumption]|].
      + reflexivity.
      + apply (parse_text "'"%char).
    - eexists. split; [split; [|refine (ev_rule false S_value _ _ rest _); cbn [sub_atomic fst snd selector_rule PAlts]; apply ev_alt1; rewrite <- !app_assoc; apply ev_text; assumption]|].
      + reflexivity.
      + apply (parse_text dquote).
    - exists (Pair S_value w [Pair S_number w []]). split.
      + apply ev_value_number; [apply (number_head []); auto|apply (number_int []); auto].
      + unfold SelectorParse.parse_value. cbn [p_inner next rbind p_rule p_text].
        assert (ND := no_dot_int [] w (or_introl eq_refl) W). cbn [app] in ND. subst n. rewrite ND, i64_positive by assumption. reflexivity.
    - exists (Pair S_value (lit "-" ++ w) [Pair S_number (lit "-" ++ w) []]). split.
      + apply ev_value_number; [apply (number_head (lit "-")); auto|apply (number_int (lit "-")); auto].
      + unfold SelectorParse.parse_value. cbn [p_inner next rbind p_rule p_text].
        assert (ND := no_dot_int (lit "-") w (or_intror eq_refl) W). subst n. rewrite ND, i64_negative by assumption. reflexivity.
    - exists (Pair S_value (t ++ e) [Pair S_number (t ++ e) []]). split.
      + apply ev_value_number; [rewrite <- app_assoc; apply decimal_head, D|apply number_decimal; assumption].
      + unfold SelectorParse.parse_value. cbn [p_inner next rbind p_rule p_text]. rewrite E.
        destruct D as (sign & w & fr & -> & _). rewrite !existsb_app. cbn [existsb]. rewrite !orb_true_r. reflexivity.
    - specialize (ST (short_name_start n S)). destruct (short_not_text n rest S) as [A B]. eexists. split.
      + apply ev_root; [|exact A|exact B]. refine (ev_rule false S_root_shape_id _ _ rest _). cbn [sub_atomic fst snd selector_rule PAlts].
        apply ev_alt2; [|apply ev_identifier; assumption].
        apply ev_call_fail. cbn [sub_atomic fst snd selector_rule selector_grammar g_rule PSeqs].
        refine (ev_seq_fail2 _ _ _ _ _ [] rest _ _); [|apply calm_hash, C].
        assert (Q : ev true (call S_namespace) (join ["."%char] [n] ++ rest) (Some ([], rest))).
        { apply ev_namespace; [discriminate|auto|exact ST|apply calm_dot, C]. }
        exact Q.
      + unfold SelectorParse.parse_value. cbn [seen fst snd selector_rule p_inner next rbind p_rule p_text].
        rewrite (short_from_str _ S). reflexivity.
    - destruct (join_head ids NE F) as (x & r & J & X).
      assert (N : exists c r, join (lit ".") ids ++ lit "#" ++ n = c :: r /\ name_start c).
      { rewrite J. destruct (short_name_start x X) as (c & u & -> & N). exists c. eexists. split; [reflexivity|exact N]. }
      specialize (ST N). destruct (short_not_text x (r ++ (lit "#" ++ n) ++ rest) X) as [A B].
      assert (EQ : (join (lit ".") ids ++ lit "#" ++ n) ++ rest = x ++ r ++ (lit "#" ++ n) ++ rest) by (rewrite J, <- !app_assoc; reflexivity).
      eexists. split.
      + apply ev_root; [|rewrite EQ; exact A|rewrite EQ; exact B].
        refine (ev_rule false S_root_shape_id _ _ rest _). cbn [sub_atomic fst snd selector_rule PAlts]. apply ev_alt1.
        refine (ev_rule false S_absolute_root_shape_id _ [] rest _). cbn [sub_atomic fst snd selector_rule PSeqs]. rewrite <- !app_assoc.
        refine (ev_seq _ _ _ _ _ [] (lit "#" ++ n ++ rest) [] rest _ _).
        * refine (ev_namespace ids _ NE F (hash_stop _) _). ev_compute.
        * cbn [skip]. refine (ev_seq _ _ _ _ _ [] (n ++ rest) [] rest (ev_str _ _ _ _) _). exact (ev_identifier true n rest S ST).
      + unfold SelectorParse.parse_value. cbn [seen fst snd selector_rule p_inner next rbind p_rule p_text].
        assert (V : valid_id (SID (join ["."%char] ids) n None)).
        { repeat split; [|apply short_is_identifier, S]. exists ids. split; [exact NE|]. split; [|reflexivity].
          apply (Forall_impl _ short_is_identifier), F. }
        assert (E := sid_from_str_complete _ V). unfold id_text in E. cbn [sid_ns sid_name sid_member] in E. rewrite app_nil_r in E.
        change (join (lit ".") ids ++ lit "#" ++ n) with (join ["."%char] ids ++ ["#"%char] ++ n). cbn [app]. rewrite E. reflexivity.
  Qed.
  Lemma acc_value v t : value_token v t -> acc (call S_value) [t] vfollow (one S_value (fun p => parse_value p = Ok v)).
  Proof.
    intros V ts s HF H. cbn [app] in H. apply spaced_head in H as (s' & E & H & A); [|eapply value_solid; eauto]. rewrite E.
    destruct (value_match v t s' V (vfollow_calm _ _ HF H)) as (p & [R M] & P).
    { intros N. exact (name_stop t ts s' N (vfollow_ready _ HF) H A). }
    exists [p], s', s'. split; [exact M|]. split; [exact H|]. split; [reflexivity|]. exists p. auto.
  Qed.

  (** ** Following tokens *)
  Definition headed (L : list string) (ts : list str) : Prop := match ts with t :: _ => In t (map lit L) | [] => False end.
  Lemma headed_sub L L' ts : (forall x, In x L -> In x L') -> headed L ts -> headed L' ts.
  Proof.
    intros S. destruct ts as [|t ts]; [auto|]. cbn [headed]. rewrite !in_map_iff. intros (x & E & I). exists x. auto.
  Qed.
  Lemma headed_here L x ts : In x L -> headed L (lit x :: ts).
  Proof. apply in_map. Qed.
  Lemma rej_headed e L : (forall x, In x L -> solid (lit x) /\ forall s', ev false e (lit x ++ s') None) -> rej e [] (headed L).
  Proof.
    intros K ts s HF H. destruct ts as [|t ts]; [destruct HF|]. cbn [headed] in HF. apply in_map_iff in HF as (x & <- & I).
    destruct (K x I) as [S N]. exact (rej_tok e x [] any S N ts s Logic.I H).
  Qed.
  Definition signs : list string := ["="; "!="; "^="; "$="; "*="; "?="; ">"; "<"; "{=}"; "{!=}"; "{<}"; "{<<}"]%string.
  Definition value_ends : list string := (["]"; ","; "|"; "}"; ")"; ":"; "&&"; "i"]%string ++ signs)%list.
  Lemma headed_vfollow L ts : (forall x, In x L -> In x value_ends) -> headed L ts -> vfollow ts.
  Proof. intros S H. apply (headed_sub _ value_ends) in H; [|exact S]. destruct ts as [|t ts]; [destruct H|]. exact H. Qed.
  Lemma headed_ready L ts : (forall x, In x L -> In x value_ends) -> headed L ts -> ready ts.
  Proof. intros S H. eapply vfollow_ready, headed_vfollow; eauto. Qed.

  (** ** Paths and keys *)
  Notation says_segment := (says_segment f64_parse).
  Notation says_key := (says_key f64_parse).
  Lemma acc_segment x ts : says_segment x ts -> acc (call S_path_segment) ts vfollow (one S_path_segment (fun p => parse_path_segment f64_parse p = Ok x)).
  Proof.
    intros [v t V|n S].
    - refine (acc_weaken _ _ _ _ _ _ (acc_call S_path_segment _ _ _ eq_refl (acc_alt1 _ _ _ _ _ (acc_value v t V))) (fun _ H => H) _).
      intros ps (p & -> & R & (q & I & RQ & P)). exists p. split; [reflexivity|]. split; [exact R|].
      unfold parse_path_segment. rewrite I. cbn [next rbind]. rewrite RQ, P. reflexivity.
    - refine (acc_weaken _ _ _ vfollow _ _ (acc_call S_path_segment _ any _ eq_refl (acc_alt2 _ _ _ _ _ _ (acc_call S_function_property _ any _ eq_refl
        (acc_tok_seq "(" (PSeq (call S_identifier) (tok ")")) ([n] ++ [lit ")"]) any any _ _ (acc_seq_tok (call S_identifier) ")" [n] ready any _ _ (acc_name n S) _) _)))) (fun _ _ => I) _).
      + apply rej_tok; [apply solid_char; reflexivity|]. intros s'. ev_compute.
      + apply solid_char; reflexivity.
      + apply solid_char; reflexivity.
      + intros ts'. apply solid_char; reflexivity.
      + auto.
      + intros ps (p & -> & R & (q & I & RQ & P)). exists p. split; [reflexivity|]. split; [exact R|].
        unfold parse_path_segment. rewrite I. cbn [next rbind]. rewrite RQ, P. cbn [next rbind p_text]. rewrite (short_from_str _ S). reflexivity.
  Qed.
  Lemma acc_path L p ts : (forall x, In x L -> In x value_ends) -> ~ In "|"%string L -> listed says_segment "|" p ts ->
    acc (call S_path) ts (headed L) (one S_path (fun q => map_result (parse_path_segment f64_parse) (p_inner q) = Ok p)).
  Proof.
    intros S NB H.
    refine (acc_weaken _ _ _ _ _ _ (acc_call S_path _ _ _ eq_refl (acc_list says_segment "|" S_path_segment (fun x q => parse_path_segment f64_parse q = Ok x) vfollow (headed L) _ acc_segment _ _ _ p ts H)) (fun _ H => H) _).
    - apply solid_char; reflexivity.
    - intros ts'. right. right. left. reflexivity.
    - intros ts'. apply headed_vfollow, S.
    - apply rej_headed. intros x I. assert (V := S x I). unfold value_ends, signs in V. cbn [app In] in V.
      repeat (destruct V as [<-|V]; [first [contradiction | split; [apply solid_char; reflexivity|intros s'; ev_compute]]|]). destruct V.
    - intros ps (q & -> & R & F). exists q. split; [reflexivity|]. split; [exact R|]. apply map_result_all.
      clear -F. induction F as [|x z l ps [_ E] F IH]; constructor; auto.
  Qed.

  Ltac in_cases V := repeat (destruct V as [<-|V]; [solve [cbn; tauto] |]); destruct V.
  Ltac sub_cases := let x := fresh "x" in let V := fresh "V" in intros x V; unfold signs in V; cbn [app In] in V; in_cases V.
  Ltac solid_tac := apply solid_char; reflexivity.
  Lemma parse_path_one q p : p_rule q = S_path -> map_result (parse_path_segment f64_parse) (p_inner q) = Ok p -> parse_path f64_parse [q] = Ok p.
  Proof. intros R E. cbn [parse_path]. rewrite R, E. cbn [rbind]. rewrite app_nil_r. reflexivity. Qed.
  Definition key_ends : list string := ("]" :: ":" :: signs)%list.
  Lemma acc_key k ts : says_key k ts -> acc (call S_key) ts (headed key_ends) (one S_key (fun p => parse_key f64_parse p = Ok k)).
  Proof.
    intros [n S|n p ts' S L].
    - refine (acc_weaken _ _ _ _ _ _ (acc_call S_key [n] (headed key_ends) _ eq_refl
        (acc_seq (call S_identifier) (POpt (PSeq (tok "|") (call S_path))) [n] [] ready (headed key_ends) (headed key_ends) _ _ (acc_name n S) (acc_opt_none _ _ _) _ _)) (fun _ H => H) _).
      + apply rej_headed. intros x V. unfold key_ends, signs in V. cbn [app In] in V.
        repeat (destruct V as [<-|V]; [split; [solid_tac|intros s'; ev_compute]|]). destruct V.
      + intros ts0. apply headed_ready. unfold key_ends, value_ends. sub_cases.
      + auto.
      + intros ps (q & -> & R & (a & b & I & -> & N)). unfold none in N. subst b. exists q. split; [reflexivity|]. split; [exact R|].
        unfold parse_key. rewrite I. cbn [app next rbind p_rule p_text]. rewrite (short_from_str _ S). reflexivity.
    - refine (acc_weaken _ _ _ _ _ _ (acc_call S_key ([n] ++ lit "|" :: ts') (headed key_ends) _ eq_refl
        (acc_seq (call S_identifier) (POpt (PSeq (tok "|") (call S_path))) [n] (lit "|" :: ts') ready (headed key_ends) (headed key_ends) _ _ (acc_name n S)
          (acc_opt _ _ _ _ (acc_tok_seq "|" _ _ (headed key_ends) (headed key_ends) _ _ (acc_path key_ends p ts' _ _ L) (fun _ H => H))) _ _)) (fun _ H => H) _).
      + solid_tac.
      + unfold key_ends, value_ends. sub_cases.
      + unfold key_ends, signs. cbn [In]. intros V. repeat (destruct V as [V|V]; [discriminate V|]). exact V.
      + intros ts0 _. solid_tac.
      + auto.
      + intros ps (q & -> & R & (a & b & I & -> & (q2 & -> & R2 & P))). exists q. split; [reflexivity|]. split; [exact R|].
        unfold parse_key. rewrite I. cbn [app next rbind p_rule p_text]. rewrite (short_from_str _ S). cbn [unwrap_result rbind].
        rewrite (parse_path_one q2 p R2 P). reflexivity.
  Qed.

  (** ** Comparisons *)
  Lemma comparator_match c sign rest : sign_of c sign -> exists p, matched S_comparator sign rest p /\ parse_comparator p = Ok c.
  Proof.
    intros SG.
    assert (K : forall q1 q2 x, selector_rule q2 = (Normal, PStr x) ->
      fst (selector_rule q1) = Normal ->
      (ev false (call q2) (x ++ rest) (Some ([Pair q2 x []], rest)) ->
         ev false (snd (selector_rule q1)) (x ++ rest) (Some ([Pair q2 x []], rest))) ->
      (ev false (call q1) (x ++ rest) (Some ([Pair q1 x [Pair q2 x []]], rest)) ->
         ev false (snd (selector_rule S_comparator)) (x ++ rest) (Some ([Pair q1 x [Pair q2 x []]], rest))) ->
      matched S_comparator x rest (Pair S_comparator x [Pair q1 x [Pair q2 x []]])).
    { intros q1 q2 x E2 E1 H1 H2. split; [reflexivity|]. refine (ev_rule false S_comparator x _ _ _). apply H2.
      assert (Q := ev_rule false q1 x [Pair q2 x []] rest). rewrite E1 in Q. apply Q. apply H1.
      exact (proj2 (tok_rule q2 x _ E2)). }
    destruct SG.
    - pick K S_string_comparator S_string_eq.
    - pick K S_string_comparator S_string_neq.
    - pick K S_string_comparator S_string_starts.
    - pick K S_string_comparator S_string_ends.
    - pick K S_string_comparator S_string_in.
    - pick K S_string_comparator S_string_exist.
    - pick K S_numeric_comparator S_number_gt.
    - pick K S_numeric_comparator S_number_lt.
    - pick K S_projection_comparator S_projection_eq.
    - pick K S_projection_comparator S_projection_neq.
    - pick K S_projection_comparator S_projection_subset.
    - pick K S_projection_comparator S_projection_proper.
  Qed.
  Lemma acc_sign c sign : sign_of c sign -> acc (call S_comparator) [sign] any (one S_comparator (fun p => parse_comparator p = Ok c)).
  Proof.
    intros SG ts s _ H. cbn [app] in H. apply spaced_head in H as (s' & E & H & A); [|destruct SG; solid_tac]. rewrite E.
    destruct (comparator_match c sign s' SG) as (p & [R M] & P).
    exists [p], s', s'. split; [exact M|]. split; [exact H|]. split; [reflexivity|]. exists p. auto.
  Qed.
  Lemma sign_headed c sign ts L : sign_of c sign -> (forall x, In x signs -> In x L) -> headed L (sign :: ts).
  Proof. intros SG S. apply (headed_sub signs); [exact S|]. destruct SG; apply headed_here; unfold signs; cbn; tauto. Qed.
  (** The suffix. *)
  Definition is_suffix (b : bool) (ps : list spair) : Prop := if b then exists t i, ps = [Pair S_case_suffix t i] else ps = [].
  Lemma acc_suffix b L : ~ In "i"%string L -> (forall x, In x L -> In x value_ends) -> acc (POpt (call S_case_suffix)) (suffix b) (headed L) (is_suffix b).
  Proof.
    intros NI S. destruct b.
    - apply acc_opt. refine (acc_weaken _ _ _ _ _ _ (acc_call S_case_suffix _ any _ eq_refl (acc_tok "i" any _)) (fun _ _ => I) _); [solid_tac|].
      intros ps ([q t i] & -> & R & N). cbn in R. subst q. exists t, i. reflexivity.
    - apply acc_opt_none, rej_headed. intros x V. assert (W := S x V). unfold value_ends, signs in W. cbn [app In] in W.
      repeat (destruct W as [<-|W]; [first [contradiction | split; [solid_tac|intros s'; ev_compute]]|]). destruct W.
  Qed.
  Lemma suffix_headed b L ts : headed L ts -> headed ("i" :: L)%list (suffix b ++ ts).
  Proof. intros H. destruct b; [apply headed_here; left; reflexivity|]. apply (headed_sub L); [intros x; right; assumption|exact H]. Qed.
  Lemma parse_values_ok {A} (vq q : srule) (values value : srule -> bool) (f : spair -> result A) t l ps b sfx :
    values vq = true -> values S_case_suffix = false -> value q = true ->
    Forall2 (fun x p => p_rule p = q /\ f p = Ok x) l ps -> is_suffix b sfx ->
    parse_values values value f (Pair vq t ps :: sfx) = Ok (l, b).
  Proof.
    intros V1 V2 V3 F B. cbn [parse_values p_rule p_inner]. rewrite V1, (forall2_parse q f value l ps V3 F). cbn [rbind].
    destruct b; [destruct B as (x & i & ->)|cbn in B; subst sfx]; cbn [parse_values p_rule]; rewrite ?V2; cbn [rbind fst snd]; rewrite ?app_nil_r; reflexivity.
  Qed.
  Lemma acc_says_value x ts : says_value f64_parse x ts -> acc (call S_value) ts vfollow (one S_value (fun p => parse_value p = Ok x)).
  Proof. intros (t & V & ->). apply acc_value, V. Qed.
  Lemma acc_comma_list {X} (item : X -> list str -> Prop) q (R : X -> spair -> Prop) L l ts :
    (forall x tx, item x tx -> acc (call q) tx vfollow (one q (R x))) -> ~ In ","%string L -> (forall x, In x L -> In x value_ends) ->
    listed item "," l ts -> acc (list_of "," (call q)) ts (headed L) (fun ps => Forall2 (fun x p => p_rule p = q /\ R x p) l ps).
  Proof.
    intros I NC S H. refine (acc_list item "," q R vfollow (headed L) _ I _ _ _ l ts H).
    - solid_tac.
    - intros ts'. right. left. reflexivity.
    - intros ts'. apply headed_vfollow, S.
    - apply rej_headed. intros x V. assert (W := S x V). unfold value_ends, signs in W. cbn [app In] in W.
      repeat (destruct W as [<-|W]; [first [contradiction | split; [solid_tac|intros s'; ev_compute]]|]). destruct W.
  Qed.
  Lemma acc_comparison c sign vs ts i : sign_of c sign -> listed (says_value f64_parse) "," vs ts ->
    acc (call S_attr_comparison) ([sign] ++ ts ++ suffix i) (headed ["]"%string])
      (one S_attr_comparison (fun p => parse_attr_comparison f64_parse p = Ok (Comparison c vs i))).
  Proof.
    intros SG L.
    refine (acc_weaken _ _ _ _ _ _ (acc_call S_attr_comparison _ (headed ["]"%string]) _ eq_refl
      (acc_seq (call S_comparator) _ [sign] (ts ++ suffix i) any (headed ["]"%string]) _ _ _ (acc_sign c sign SG)
        (acc_seq (call S_attr_values) _ ts (suffix i) (headed ["i"; "]"]%string) (headed ["]"%string]) _ _ _
           (acc_call S_attr_values _ _ _ eq_refl (acc_comma_list (says_value f64_parse) S_value (fun x p => parse_value p = Ok x) _ vs ts acc_says_value _ _ L))
           (acc_suffix i ["]"%string] _ _) _ _) _ _)) (fun _ H => H) _).
    - intros [E|[E|[]]]; discriminate E.
    - unfold value_ends. sub_cases.
    - intros [E|[]]; discriminate E.
    - unfold value_ends. sub_cases.
    - intros ts0. apply suffix_headed.
    - auto.
    - intros; exact I.
    - auto.
    - intros ps (q & -> & R & (a & b & E1 & (pc & -> & RC & PC) & (u & v & -> & (pv & -> & RV & PV) & SF))). exists q. split; [reflexivity|]. split; [exact R|].
      unfold parse_attr_comparison. rewrite E1. cbn [app next rbind]. rewrite PC. cbn [rbind]. destruct pv as [rv tv iv]. cbn in RV, PV. subst rv.
      rewrite (parse_values_ok S_attr_values S_value _ _ parse_value tv vs iv i v eq_refl eq_refl eq_refl PV SF). reflexivity.
  Qed.
  Lemma acc_attribute a ts : says_attribute f64_parse a ts -> acc (call S_attr) ts any (one S_attr (fun p => parse_attr f64_parse p = Ok a)).
  Proof.
    intros [k tk K|k tk c sign vs tv i K SG L].
    - refine (acc_weaken _ _ _ _ _ _ (acc_call S_attr (lit "[" :: tk ++ [] ++ [lit "]"]) any _ eq_refl
        (acc_tok_seq "[" _ (tk ++ [] ++ [lit "]"]) any any _ _
          (acc_seq (call S_key) _ tk ([] ++ [lit "]"]) (headed key_ends) any any _ _ (acc_key k tk K)
            (acc_seq_tok (POpt (call S_attr_comparison)) "]" [] (headed ["]"%string]) any _ _ (acc_opt_none _ _ _) _) _ _) _)) (fun _ _ => I) _).
      + solid_tac.
      + solid_tac.
      + apply rej_headed. intros x [<-|[]]. split; [solid_tac|intros s'; ev_compute].
      + intros ts0. left. reflexivity.
      + intros ts0 _. left. reflexivity.
      + auto.
      + auto.
      + intros ps (q & -> & R & (u & v & E1 & (pk & -> & RK & PK) & N)). unfold none in N. subst v. exists q. split; [reflexivity|]. split; [exact R|].
        unfold parse_attr. rewrite E1. cbn [app]. rewrite RK, PK. reflexivity.
    - replace ([lit "["] ++ tk ++ [sign] ++ tv ++ suffix i ++ [lit "]"]) with (lit "[" :: tk ++ ([sign] ++ tv ++ suffix i) ++ [lit "]"])
        by (rewrite <- !app_assoc; reflexivity).
      refine (acc_weaken _ _ _ _ _ _ (acc_call S_attr _ any _ eq_refl
        (acc_tok_seq "[" _ (tk ++ ([sign] ++ tv ++ suffix i) ++ [lit "]"]) any any _ _
          (acc_seq (call S_key) _ tk (([sign] ++ tv ++ suffix i) ++ [lit "]"]) (headed key_ends) any any _ _ (acc_key k tk K)
            (acc_seq_tok (POpt (call S_attr_comparison)) "]" ([sign] ++ tv ++ suffix i) (headed ["]"%string]) any _ _ (acc_opt _ _ _ _ (acc_comparison c sign vs tv i SG L)) _) _ _) _)) (fun _ _ => I) _).
      + solid_tac.
      + solid_tac.
      + intros ts0. left. reflexivity.
      + intros ts0 _. apply (sign_headed c); [exact SG|]. intros x H. right. right. exact H.
      + auto.
      + auto.
      + intros ps (q & -> & R & (u & v & E1 & (pk & -> & RK & PK) & (pc & -> & RC & PC))). exists q. split; [reflexivity|]. split; [exact R|].
        unfold parse_attr. rewrite E1. cbn [app]. rewrite RK, PK. cbn [rbind]. rewrite RC, PC. reflexivity.
  Qed.

  (** ** Scoped attributes *)
  Notation says_scoped_value := (says_scoped_value f64_parse).
  Notation says_assertion := (says_assertion f64_parse).
  Lemma acc_scoped_value v ts : says_scoped_value v ts ->
    acc (call S_scoped_value) ts vfollow (one S_scoped_value (fun p => parse_scoped_value f64_parse p = Ok v)).
  Proof.
    intros [w t V|p tp L].
    - refine (acc_weaken _ _ _ _ _ _ (acc_call S_scoped_value _ _ _ eq_refl (acc_alt1 _ _ _ _ _ (acc_value w t V))) (fun _ H => H) _).
      intros ps (q & -> & R & (u & E1 & RU & P)). exists q. split; [reflexivity|]. split; [exact R|].
      unfold parse_scoped_value. rewrite E1. cbn [next rbind]. rewrite RU, P. reflexivity.
    - refine (acc_weaken _ _ _ vfollow _ _ (acc_call S_scoped_value _ any _ eq_refl (acc_alt2 _ _ _ _ _ _ (acc_call S_context_value _ any _ eq_refl
        (acc_tok_seq "@{" (PSeq (call S_path) (tok "}")) (tp ++ [lit "}"]) any any _ _ (acc_seq_tok (call S_path) "}" tp (headed ["}"%string]) any _ _ (acc_path ["}"%string] p tp _ _ L) _) _)))) (fun _ _ => I) _).
      + apply rej_tok; [solid_tac|]. intros s'. ev_compute.
      + solid_tac.
      + solid_tac.
      + unfold value_ends. sub_cases.
      + intros [E|[]]; discriminate E.
      + intros ts'. left. reflexivity.
      + auto.
      + intros ps (q & -> & R & (u & E1 & RU & (w & E2 & RW & P))). exists q. split; [reflexivity|]. split; [exact R|].
        unfold parse_scoped_value. rewrite E1. cbn [next rbind]. rewrite RU, E2, (parse_path_one w p RW P). reflexivity.
  Qed.
  Definition assertion_ends : list string := ["&&"; "]"]%string.
  Lemma acc_assertion a ts : says_assertion a ts ->
    acc (call S_scoped_assertion) ts (headed assertion_ends) (one S_scoped_assertion (fun p => parse_scoped_assertion f64_parse p = Ok a)).
  Proof.
    intros [v tv c sign vs tw i V SG L].
    refine (acc_weaken _ _ _ _ _ _ (acc_call S_scoped_assertion _ (headed assertion_ends) _ eq_refl
      (acc_seq (call S_scoped_value) _ tv ([sign] ++ tw ++ suffix i) vfollow (headed assertion_ends) _ _ _ (acc_scoped_value v tv V)
      (acc_seq (call S_comparator) _ [sign] (tw ++ suffix i) any (headed assertion_ends) _ _ _ (acc_sign c sign SG)
        (acc_seq (call S_scoped_values) _ tw (suffix i) (headed ("i" :: assertion_ends)) (headed assertion_ends) _ _ _
           (acc_call S_scoped_values _ _ _ eq_refl (acc_comma_list says_scoped_value S_scoped_value (fun x p => parse_scoped_value f64_parse p = Ok x) _ vs tw acc_scoped_value _ _ L))
           (acc_suffix i assertion_ends _ _) _ _) _ _) _ _)) (fun _ H => H) _).
    - unfold assertion_ends. intros [E|[E|[E|[]]]]; discriminate E.
    - unfold value_ends, assertion_ends. sub_cases.
    - unfold assertion_ends. intros [E|[E|[]]]; discriminate E.
    - unfold value_ends, assertion_ends. sub_cases.
    - intros ts0. apply suffix_headed.
    - auto.
    - intros; exact I.
    - auto.
    - intros ts0 _. apply (headed_vfollow value_ends); [auto|]. apply (sign_headed c); [exact SG|]. intros x H. apply in_or_app. right. exact H.
    - auto.
    - intros ps (q & -> & R & (a0 & b & E1 & (pl & -> & RL & PL) & (a1 & b1 & -> & (pc & -> & RC & PC) & (u & w & -> & (pv & -> & RV & PV) & SF)))).
      exists q. split; [reflexivity|]. split; [exact R|].
      unfold parse_scoped_assertion. rewrite E1. cbn [app next rbind]. rewrite RL, PL. cbn [rbind next]. rewrite PC. cbn [rbind]. destruct pv as [rv tv' iv]. cbn in RV, PV. subst rv.
      rewrite (parse_values_ok S_scoped_values S_scoped_value _ _ (parse_scoped_value f64_parse) tv' vs iv i w eq_refl eq_refl eq_refl PV SF). reflexivity.
  Qed.
  Lemma acc_assertions l ts : listed says_assertion "&&" l ts ->
    acc (call S_scoped_assertions) ts (headed ["]"%string])
      (one S_scoped_assertions (fun p => l <> [] /\ Forall2 (fun x p => p_rule p = S_scoped_assertion /\ parse_scoped_assertion f64_parse p = Ok x) l (p_inner p))).
  Proof.
    intros L. assert (NE : l <> []) by (destruct L; discriminate).
    refine (acc_weaken _ _ _ _ _ _ (acc_call S_scoped_assertions _ _ _ eq_refl
      (acc_list says_assertion "&&" S_scoped_assertion (fun x p => parse_scoped_assertion f64_parse p = Ok x) (headed assertion_ends) (headed ["]"%string]) _ acc_assertion _ _ _ l ts L)) (fun _ H => H) _).
    - solid_tac.
    - intros ts0. left. reflexivity.
    - intros ts0. apply headed_sub. unfold assertion_ends. sub_cases.
    - apply rej_headed. intros x [<-|[]]. split; [solid_tac|intros s'; ev_compute].
    - intros ps (q & -> & R & F). exists q. auto.
  Qed.
  Lemma assertions_ok l ps (key : option key) : l <> [] -> Forall2 (fun x p => p_rule p = S_scoped_assertion /\ parse_scoped_assertion f64_parse p = Ok x) l ps ->
    (l <- map_result (fun q => match p_rule q with
                               | S_scoped_assertion => parse_scoped_assertion f64_parse q
                               | _ => unexpected "parse_selector_scoped_attr"
                               end) ps ;;
     match l with [] => Panic | _ => Ok (Scoped key l) end) = Ok (Scoped key l).
  Proof.
    intros NE F. rewrite (map_result_all _ l ps); [destruct l; [congruence|reflexivity]|].
    clear NE. induction F as [|x p l ps [R E] F IH]; constructor; auto. rewrite R. exact E.
  Qed.
  Lemma acc_scoped a ts : says_scoped f64_parse a ts -> acc (call S_scoped_attr) ts any (one S_scoped_attr (fun p => parse_scoped_attr f64_parse p = Ok a)).
  Proof.
    intros [l tl L|k tk l tl K L].
    - refine (acc_weaken _ _ _ _ _ _ (acc_call S_scoped_attr (lit "[@" :: [] ++ lit ":" :: tl ++ [lit "]"]) any _ eq_refl
        (acc_tok_seq "[@" _ ([] ++ lit ":" :: tl ++ [lit "]"]) any any _ _
          (acc_seq (POpt (call S_key)) _ [] (lit ":" :: tl ++ [lit "]"]) (headed [":"%string]) any any _ _ (acc_opt_none _ _ _)
            (acc_tok_seq ":" _ (tl ++ [lit "]"]) any any _ _ (acc_seq_tok (call S_scoped_assertions) "]" tl (headed ["]"%string]) any _ _ (acc_assertions l tl L) _) _) _ _) _)) (fun _ _ => I) _).
      + solid_tac.
      + apply rej_headed. intros x [<-|[]]. split; [solid_tac|intros s'; ev_compute].
      + solid_tac.
      + solid_tac.
      + intros ts0. left. reflexivity.
      + auto.
      + intros ts0 _. left. reflexivity.
      + auto.
      + auto.
      + intros ps (q & -> & R & (u & v & E1 & N & (pa & -> & RA & (NE & PA)))). unfold none in N. subst u. exists q. split; [reflexivity|]. split; [exact R|].
        unfold parse_scoped_attr. rewrite E1. cbn [app next rbind]. rewrite !RA. apply assertions_ok; assumption.
    - refine (acc_weaken _ _ _ _ _ _ (acc_call S_scoped_attr (lit "[@" :: tk ++ lit ":" :: tl ++ [lit "]"]) any _ eq_refl
        (acc_tok_seq "[@" _ (tk ++ lit ":" :: tl ++ [lit "]"]) any any _ _
          (acc_seq (POpt (call S_key)) _ tk (lit ":" :: tl ++ [lit "]"]) (headed key_ends) any any _ _ (acc_opt _ _ _ _ (acc_key k tk K))
            (acc_tok_seq ":" _ (tl ++ [lit "]"]) any any _ _ (acc_seq_tok (call S_scoped_assertions) "]" tl (headed ["]"%string]) any _ _ (acc_assertions l tl L) _) _) _ _) _)) (fun _ _ => I) _).
      + solid_tac.
      + solid_tac.
      + solid_tac.
      + intros ts0. left. reflexivity.
      + auto.
      + intros ts0 _. right. left. reflexivity.
      + auto.
      + auto.
      + intros ps (q & -> & R & (u & v & E1 & (pk & -> & RK & PK) & (pa & -> & RA & (NE & PA)))). exists q. split; [reflexivity|]. split; [exact R|].
        unfold parse_scoped_attr. rewrite E1. cbn [app next rbind]. rewrite RK, PK. cbn [rbind]. rewrite RA. apply assertions_ok; assumption.
  Qed.

  (** ** Neighbors *)
  Lemma acc_named n ts : named n ts -> acc (call S_identifier) ts ready (one S_identifier (fun p => p_inner p = [] /\ short_identifier n /\ p_text p = n)).
  Proof.
    intros [S ->]. refine (acc_weaken _ _ _ _ _ _ (acc_name n S) (fun _ H => H) _). intros ps ->. eexists. split; [reflexivity|]. auto.
  Qed.
  Lemma acc_directed q o c l ts : selector_rule q = (Normal, PSeqs [tok o; call S_directed_relationships; tok c]) -> solid (lit o) -> solid (lit c) ->
    (forall s', ev false (tok ",") (lit c ++ s') None) -> listed named "," l ts ->
    acc (call q) ([lit o] ++ ts ++ [lit c]) any (one q (fun p => parse_directed p = Ok l)).
  Proof.
    intros E So Sc NC L.
    assert (A : acc (snd (selector_rule q)) ([lit o] ++ ts ++ [lit c]) any
      (one S_directed_relationships (fun p => Forall2 (fun x p => p_rule p = S_identifier /\ (p_inner p = [] /\ short_identifier x /\ p_text p = x)) l (p_inner p)))).
    { rewrite E. cbn [snd PSeqs].
      refine (acc_tok_seq o _ (ts ++ [lit c]) any any _ So (acc_seq_tok (call S_directed_relationships) c ts (headed [c]) any _ Sc
        (acc_call S_directed_relationships _ _ _ eq_refl (acc_list named "," S_identifier _ ready (headed [c]) _ acc_named _ _ _ l ts L)) _) _).
      - solid_tac.
      - intros ts0. solid_tac.
      - intros ts0 H. destruct ts0 as [|t ts0]; [exact I|]. destruct H as [<-|[]]. exact Sc.
      - apply rej_headed. intros x [<-|[]]. auto.
      - intros ts0. left. reflexivity.
      - auto. }
    refine (acc_weaken _ _ _ _ _ _ (acc_call q _ any _ _ A) (fun _ _ => I) _); [rewrite E; reflexivity|].
    intros ps (p & -> & R & (d & E1 & RD & F)). exists p. split; [reflexivity|]. split; [exact R|].
    unfold parse_directed. rewrite E1. cbn [next rbind]. rewrite RD. apply map_result_all.
    clear -F. induction F as [|x z l ps (RZ & _ & S & T) F IH]; constructor; auto. rewrite RZ, T. apply short_from_str, S.
  Qed.

  (** ** Expressions *)
  Definition xfollow (ts : list str) : Prop :=
    match ts with [] => True | t :: _ => solid t /\ (t = lit "-[" \/ exists c r, t = c :: r /\ c <> "-"%char) end.
  Definition sfollow (ts : list str) : Prop := ts = [] \/ headed [")"; ","]%string ts.
  Lemma xfollow_ready ts : xfollow ts -> ready ts.
  Proof. destruct ts; [auto|]. intros [S _]. exact S. Qed.
  Lemma sfollow_x ts : sfollow ts -> xfollow ts.
  Proof.
    intros [->|H]; [exact I|]. destruct ts as [|t ts]; [exact I|]. cbn [headed map In] in H.
    destruct H as [<-|[<-|[]]]; (split; [solid_tac|right; eexists; eexists; split; [reflexivity|discriminate]]).
  Qed.
  Ltac plain_head := eexists; eexists; split; [reflexivity|]; split; [solid_tac|]; right; eexists; eexists; split; [reflexivity|discriminate].
  Lemma expr_head x ts : says_expr f64_parse x ts -> exists t ts', ts = t :: ts' /\ solid t /\ (t = lit "-[" \/ exists c r, t = c :: r /\ c <> "-"%char).
  Proof.
    intros [t|a ta A|s ta A|n ta A|n args ta S A|n sel ta S A|n S].
    - destruct t; plain_head.
    - destruct A; plain_head.
    - destruct A; plain_head.
    - destruct A; try plain_head. eexists. eexists. split; [reflexivity|]. split; [solid_tac|]. left. reflexivity.
    - plain_head.
    - plain_head.
    - plain_head.
  Qed.

  Notation x_expr := (call S_selector_expression).
  Notation reads_as x := (one S_selector_expression (fun p => parse_expression f64_parse p = Ok x)).
  (** From one of the alternatives to the expression. *)
  Definition alternative (q : srule) (toks : list str) (F : list str -> Prop) : Prop :=
    forall P, acc (call q) toks F (one q P) -> acc x_expr toks F (one S_selector_expression (fun p => exists i, p_inner p = [i] /\ p_rule i = q /\ P i)).
  Lemma of_alternative (e : pexp srule) q toks F P :
    acc e toks F (one q P) -> snd (selector_rule S_selector_expression) = e ->
    acc x_expr toks F (one S_selector_expression (fun p => exists i, p_inner p = [i] /\ p_rule i = q /\ P i)).
  Proof.
    intros A E. subst e. exact (acc_call S_selector_expression _ _ _ eq_refl A).
  Qed.
  Ltac rej_here := apply rej_tok; [solid_tac|intros ?s'; ev_compute].
  Ltac pick_alt := lazymatch goal with
    | |- acc (snd _) _ _ _ => cbn [snd selector_rule PAlts]; pick_alt
    | A : acc (call ?q) _ _ _ |- acc (PAlt (call ?q) _) _ _ _ => apply acc_alt1; exact A
    | A : acc (call ?q) _ _ _ |- acc (call ?q) _ _ _ => exact A
    | |- acc (PAlt _ _) _ _ _ => apply acc_alt2; [rej_here|pick_alt]
    end.
  Ltac inner_pair p i r t u := destruct p as [?r0 ?t0 ?i0]; cbn in *; subst; destruct i as [r t u]; cbn in *; subst.

  Lemma acc_type t : acc x_expr [type_word t] xfollow (reads_as (XShapeType t)).
  Proof.
    assert (A : acc (call S_shape_types) [type_word t] xfollow (one S_shape_types (fun p => parse_shape_types p = Ok t))).
    { destruct (match t with TyAny => true | _ => false end) eqn:TA.
      - destruct t; try discriminate TA.
        refine (acc_weaken _ _ _ _ _ _ (acc_call S_shape_types _ any _ eq_refl (acc_alt1 _ _ _ _ _ (acc_tok "*" any _))) (fun _ _ => I) _); [solid_tac|].
        intros ps (p & -> & R & N). exists p. split; [reflexivity|]. split; [exact R|]. unfold parse_shape_types. rewrite N. reflexivity.
      - assert (S : short_identifier (type_word t)).
        { destruct t; try discriminate TA; (eexists; eexists; split; [left; reflexivity|]; split; [reflexivity|]; repeat (constructor; [left; reflexivity|]); constructor). }
        refine (acc_weaken _ _ _ _ _ _ (acc_call S_shape_types _ ready _ eq_refl (acc_alt2 _ _ _ _ _ _ (acc_name _ S))) xfollow_ready _).
        + apply rej_name; [exact S|]. intros c s' [C | ->]; [|ev_compute]. exists 5. all_chars c; try discriminate C; reflexivity.
        + intros ps (p & -> & R & E). exists p. split; [reflexivity|]. split; [exact R|]. unfold parse_shape_types. rewrite E. cbn [p_rule p_text].
          destruct t; try discriminate TA; reflexivity. }
    refine (acc_weaken _ _ _ _ _ _ (of_alternative _ S_shape_types _ _ _ (acc_alt1 _ _ _ _ _ A) eq_refl) (fun _ H => H) _).
    intros ps (p & -> & R & (i & E & RI & P)). exists p. split; [reflexivity|]. split; [exact R|]. destruct p as [r0 t0 i0]. cbn in *. subst i0.
    destruct i as [r1 t1 i1]. cbn in RI. subst r1. cbn [parse_expression]. rewrite P. reflexivity.
  Qed.
  Lemma acc_x_attribute a ts : says_attribute f64_parse a ts -> acc x_expr ts xfollow (reads_as (XAttribute a)).
  Proof.
    intros SA. assert (A := acc_attribute a ts SA).
    assert (X : exists ts', ts = lit "[" :: ts') by (destruct SA; eexists; reflexivity). destruct X as [ts' ->].
    refine (acc_weaken _ _ _ _ _ _ (of_alternative _ S_attr _ any _ _ eq_refl) (fun _ _ => I) _).
    - pick_alt.
    - intros ps (p & -> & R & (i & E & RI & P)). exists p. split; [reflexivity|]. split; [exact R|]. destruct p as [r0 t0 i0]. cbn in *. subst i0.
      destruct i as [r1 t1 i1]. cbn in RI. subst r1. cbn [parse_expression]. rewrite P. reflexivity.
  Qed.
  Lemma acc_x_scoped a ts : says_scoped f64_parse a ts -> acc x_expr ts xfollow (reads_as (XScoped a)).
  Proof.
    intros SA. assert (A := acc_scoped a ts SA).
    assert (X : exists ts', ts = lit "[@" :: ts') by (destruct SA; eexists; reflexivity). destruct X as [ts' ->].
    refine (acc_weaken _ _ _ _ _ _ (of_alternative _ S_scoped_attr _ any _ _ eq_refl) (fun _ _ => I) _).
    - pick_alt.
    - intros ps (p & -> & R & (i & E & RI & P)). exists p. split; [reflexivity|]. split; [exact R|]. destruct p as [r0 t0 i0]. cbn in *. subst i0.
      destruct i as [r1 t1 i1]. cbn in RI. subst r1. cbn [parse_expression]. rewrite P. reflexivity.
  Qed.
  Lemma acc_x_neighbor n ts : says_neighbor n ts -> acc x_expr ts xfollow (reads_as (XNeighbor n)).
  Proof.
    intros [| |l ts' L|l ts' L|].
    - assert (A : acc (call S_forward_undirected) [lit ">"] any (one S_forward_undirected (fun p => True))).
      { refine (acc_weaken _ _ _ _ _ _ (acc_call S_forward_undirected _ any _ eq_refl (acc_tok ">" any _)) (fun _ _ => I) _); [solid_tac|].
        intros ps (p & -> & R & _). exists p. auto. }
      refine (acc_weaken _ _ _ _ _ _ (of_alternative _ S_forward_undirected _ any _ _ eq_refl) (fun _ _ => I) _); [pick_alt|].
      intros ps (p & -> & R & (i & E & RI & P)). exists p. split; [reflexivity|]. split; [exact R|]. destruct p as [r0 t0 i0]. cbn in *. subst i0.
      destruct i as [r1 t1 i1]. cbn in RI. subst r1. reflexivity.
    - assert (A : acc (call S_reverse_undirected) [lit "<"] xfollow (one S_reverse_undirected (fun p => True))).
      { refine (acc_weaken _ _ _ _ _ _ (acc_call S_reverse_undirected _ any _ eq_refl (acc_tok "<" any _)) (fun _ _ => I) _); [solid_tac|].
        intros ps (p & -> & R & _). exists p. auto. }
      assert (N : rej (call S_reverse_directed) [lit "<"] xfollow).
      { clear ts. intros ts s HF H. cbn [app] in H. apply spaced_head in H as (s' & E & H & AP); [|solid_tac]. rewrite E.
        apply ev_call_fail. cbn [sub_atomic fst snd selector_rule selector_grammar g_rule PSeqs]. apply ev_seq_fail1, ev_str_fail.
        assert (K : match s' with [] => True | c :: _ => c <> "-"%char end).
        { destruct (spaced_first ts s' (xfollow_ready _ HF) H) as [-> | [(d & s2 & -> & D)|(t & ts2 & s2 & -> & ->)]]; [exact I| |].
          - destruct D as [-> | [-> | ->]]; discriminate.
          - destruct HF as [S [-> | (c & r & -> & C)]]; [|exact C].
            destruct (AP _ _ eq_refl) as (c & s3 & E3 & B); [right; split; reflexivity|]. injection E3 as <- _.
            destruct B as [B|[B|B]]; discriminate B. }
        destruct s' as [|c s']; [reflexivity|]. apply Ascii.eqb_neq in K. rewrite Ascii.eqb_sym in K.
        change (lit "<" ++ c :: s') with ("<"%char :: c :: s'). cbn [lit list_ascii_of_string strip_prefix]. rewrite K. reflexivity. }
      refine (acc_weaken _ _ _ _ _ _ (of_alternative _ S_reverse_undirected _ xfollow _ _ eq_refl) (fun _ H => H) _).
      + cbn [snd selector_rule PAlts]. do 5 (apply acc_alt2; [rej_here|]). apply acc_alt2; [exact N|]. pick_alt.
      + intros ps (p & -> & R & (i & E & RI & P)). exists p. split; [reflexivity|]. split; [exact R|]. destruct p as [r0 t0 i0]. cbn in *. subst i0.
        destruct i as [r1 t1 i1]. cbn in RI. subst r1. reflexivity.
    - assert (A := acc_directed S_forward_directed "-[" "]->" l ts' eq_refl). cbn [app] in *.
      refine (acc_weaken _ _ _ _ _ _ (of_alternative _ S_forward_directed _ any _ _ eq_refl) (fun _ _ => I) _).
      + cbn [snd selector_rule PAlts]. do 4 (apply acc_alt2; [rej_here|]). apply acc_alt1, A; [solid_tac|solid_tac|intros; ev_compute|exact L].
      + intros ps (p & -> & R & (i & E & RI & P)). exists p. split; [reflexivity|]. split; [exact R|]. destruct p as [r0 t0 i0]. cbn in *. subst i0.
        destruct i as [r1 t1 i1]. cbn in RI. subst r1. cbn [parse_expression]. rewrite P. reflexivity.
    - assert (A := acc_directed S_reverse_directed "<-[" "]-" l ts' eq_refl). cbn [app] in *.
      refine (acc_weaken _ _ _ _ _ _ (of_alternative _ S_reverse_directed _ any _ _ eq_refl) (fun _ _ => I) _).
      + cbn [snd selector_rule PAlts]. do 5 (apply acc_alt2; [rej_here|]). apply acc_alt1, A; [solid_tac|solid_tac|intros; ev_compute|exact L].
      + intros ps (p & -> & R & (i & E & RI & P)). exists p. split; [reflexivity|]. split; [exact R|]. destruct p as [r0 t0 i0]. cbn in *. subst i0.
        destruct i as [r1 t1 i1]. cbn in RI. subst r1. cbn [parse_expression]. rewrite P. reflexivity.
    - assert (A : acc (call S_forward_recursive) [lit "~>"] any (one S_forward_recursive (fun p => True))).
      { refine (acc_weaken _ _ _ _ _ _ (acc_call S_forward_recursive _ any _ eq_refl (acc_tok "~>" any _)) (fun _ _ => I) _); [solid_tac|].
        intros ps (p & -> & R & _). exists p. auto. }
      refine (acc_weaken _ _ _ _ _ _ (of_alternative _ S_forward_recursive _ any _ _ eq_refl) (fun _ _ => I) _); [pick_alt|].
      intros ps (p & -> & R & (i & E & RI & P)). exists p. split; [reflexivity|]. split; [exact R|]. destruct p as [r0 t0 i0]. cbn in *. subst i0.
      destruct i as [r1 t1 i1]. cbn in RI. subst r1. reflexivity.
  Qed.
  Lemma acc_x_reference n : short_identifier n -> acc x_expr [lit "${"; n; lit "}"] xfollow (reads_as (XReference n)).
  Proof.
    intros S.
    assert (A : acc (call S_variable_get) [lit "${"; n; lit "}"] any (one S_variable_get (fun p => parse_variable_get p = Ok n))).
    { refine (acc_weaken _ _ _ _ _ _ (acc_call S_variable_get _ any _ eq_refl
        (acc_tok_seq "${" _ ([n] ++ [lit "}"]) any any _ _ (acc_seq_tok (call S_identifier) "}" [n] ready any _ _ (acc_name n S) _) _)) (fun _ _ => I) _).
      - solid_tac.
      - solid_tac.
      - intros ts. solid_tac.
      - auto.
      - intros ps (p & -> & R & E). exists p. split; [reflexivity|]. split; [exact R|]. unfold parse_variable_get. rewrite E.
        cbn [next rbind p_rule p_text]. apply short_from_str, S. }
    refine (acc_weaken _ _ _ _ _ _ (of_alternative _ S_variable_get _ any _ _ eq_refl) (fun _ _ => I) _); [pick_alt|].
    intros ps (p & -> & R & (i & E & RI & P)). exists p. split; [reflexivity|]. split; [exact R|]. destruct p as [r0 t0 i0]. cbn in *. subst i0.
    destruct i as [r1 t1 i1]. cbn in RI. subst r1. cbn [parse_expression]. rewrite P. reflexivity.
  Qed.

  (** ** Selectors *)
  Definition seq_ok (l : selector) (toks : list str) : Prop :=
    forall ts s r0, sfollow ts -> spaced (toks ++ ts) s -> unblank r0 = unblank s ->
      exists ps r s', ev false (PMore x_expr) r0 (Some (ps, r)) /\ spaced ts s' /\ unblank r = unblank s'
        /\ Forall2 (fun x p => p_rule p = S_selector_expression /\ parse_expression f64_parse p = Ok x) l ps.
  Lemma seq_nil : seq_ok [] [].
  Proof.
    intros ts s r0 HF H E0. exists [], r0, s. split; [|split; [exact H|split; [exact E0|constructor]]].
    apply ev_more_nil. cbn [skip]. rewrite E0. destruct HF as [-> | HF].
    - apply spaced_nil in H. rewrite H. ev_compute.
    - revert ts s HF H E0. assert (K : rej x_expr [] (headed [")"; ","]%string)).
      { apply rej_headed. intros x [<-|[<-|[]]]; (split; [solid_tac|intros s'; ev_compute]). }
      intros ts s HF H _. exact (K ts s HF H).
  Qed.
  Lemma seq_cons x l tx tl : acc x_expr tx xfollow (reads_as x) -> (forall ts, sfollow ts -> xfollow (tl ++ ts)) -> seq_ok l tl -> seq_ok (x :: l) (tx ++ tl).
  Proof.
    intros A NX L ts s r0 HF H E0. rewrite <- app_assoc in H.
    destruct (A _ s (NX _ HF) H) as (ps & r & s' & E & S & U & (p & -> & RP & P)).
    destruct (L ts s' r HF S U) as (ps & r2 & s2 & E2 & S2 & U2 & P2).
    exists ([p] ++ ps), r2, s2. split; [|split; [exact S2|split; [exact U2|constructor; auto]]].
    refine (ev_more_cons _ _ _ _ _ _ _ _ _ E2). cbn [skip]. rewrite E0. exact E.
  Qed.
  Lemma plus_of_more a s ps r : ev false (PMore a) s (Some (ps, r)) -> ps <> [] ->
    exists r2, ev false (PPlus a) (unblank s) (Some (ps, r2)) /\ unblank r2 = unblank r.
  Proof.
    intros [f F] NE. destruct f as [|f]; [discriminate F|]. cbn [run skip] in F.
    destruct (run selector_grammar f false a (unblank s)) as [[[qs s1]|]|] eqn:A; [| |discriminate F].
    - destruct (run selector_grammar f false (PMore a) s1) as [[[us u]|]|] eqn:B; [|discriminate F|discriminate F]. injection F as <- <-.
      destruct (star_of_more a s1 us u (ev_run _ f _ _ _ _ B)) as (r2 & E2 & U2). exists r2. split; [|exact U2].
      exact (ev_seq _ _ _ _ _ _ _ _ _ (ev_run _ f _ _ _ _ A) E2).
    - injection F as <- <-. congruence.
  Qed.
  Lemma acc_selector l toks : l <> [] -> seq_ok l toks -> acc (call S_selector) toks sfollow (one S_selector (fun p => parse_a_selector f64_parse p = Ok l)).
  Proof.
    intros NE L.
    assert (A : acc (snd (selector_rule S_selector)) toks sfollow (fun ps => Forall2 (fun x p => p_rule p = S_selector_expression /\ parse_expression f64_parse p = Ok x) l ps)).
    { intros ts s HF H. destruct (L ts s s HF H eq_refl) as (ps & r & s' & E & S & U & F).
      destruct (plus_of_more _ _ _ _ E) as (r2 & E2 & U2); [destruct F; [congruence|discriminate]|].
      exists ps, r2, s'. split; [exact E2|]. split; [exact S|]. split; [congruence|exact F]. }
    refine (acc_weaken _ _ _ _ _ _ (acc_call S_selector _ _ _ eq_refl A) (fun _ H => H) _).
    intros ps (p & -> & R & F). exists p. split; [reflexivity|]. split; [exact R|]. unfold parse_a_selector. rewrite R. apply map_result_all.
    clear -F. induction F as [|x z l ps [RZ E] F IH]; constructor; auto. rewrite RZ. exact E.
  Qed.
  Definition sel_item (l : selector) (toks : list str) : Prop := acc (call S_selector) toks sfollow (one S_selector (fun p => parse_a_selector f64_parse p = Ok l)).
  Lemma acc_x_function n args ts : short_identifier n -> listed sel_item "," args ts ->
    acc x_expr ([lit ":"; n; lit "("] ++ ts ++ [lit ")"]) xfollow (reads_as (XFunction n args)).
  Proof.
    intros S L. assert (NE : args <> []) by (destruct L; discriminate).
    assert (A : acc (call S_function) (lit ":" :: [n] ++ lit "(" :: ts ++ [lit ")"]) any
      (one S_function (fun p => exists t ps, p_inner p = [Pair S_identifier n []; Pair S_function_args t ps]
         /\ Forall2 (fun x p => p_rule p = S_selector /\ parse_a_selector f64_parse p = Ok x) args ps))).
    { refine (acc_weaken _ _ _ _ _ _ (acc_call S_function _ any _ eq_refl
        (acc_tok_seq ":" _ ([n] ++ lit "(" :: ts ++ [lit ")"]) any any _ _ (acc_seq (call S_identifier) _ [n] (lit "(" :: ts ++ [lit ")"]) ready any any _ _ (acc_name n S)
          (acc_tok_seq "(" _ (ts ++ [lit ")"]) any any _ _ (acc_seq_tok (call S_function_args) ")" ts (headed [")"%string]) any _ _
             (acc_call S_function_args _ _ _ eq_refl (acc_list sel_item "," S_selector (fun x p => parse_a_selector f64_parse p = Ok x) sfollow (headed [")"%string]) _ (fun _ _ H => H) _ _ _ args ts L)) _) _) _ _) _)) (fun _ _ => I) _).
      - solid_tac.
      - solid_tac.
      - solid_tac.
      - solid_tac.
      - intros ts0. right. right. left. reflexivity.
      - intros ts0 H. right. apply (headed_sub [")"%string]); [sub_cases|exact H].
      - apply rej_headed. intros x [<-|[]]. split; [solid_tac|intros s'; ev_compute].
      - intros ts0. left. reflexivity.
      - auto.
      - intros ts0 _. solid_tac.
      - auto.
      - auto.
      - intros ps (p & -> & R & (a & b & E & -> & ([ra ta ia] & -> & RA & F))). cbn in RA, F. subst ra. exists p. split; [reflexivity|]. split; [exact R|].
        exists ta, ia. auto. }
    refine (acc_weaken _ _ _ _ _ _ (of_alternative _ S_function _ any _ _ eq_refl) (fun _ _ => I) _); [cbn [app] in *; pick_alt|].
    intros ps (p & -> & R & (i & E & RI & (ta & ia & E2 & F))). exists p. split; [reflexivity|]. split; [exact R|]. destruct p as [r0 t0 i0]. cbn in E. subst i0.
    destruct i as [r1 t1 i1]. cbn in RI, E2. subst r1 i1. rewrite parse_function_eq by reflexivity. cbn [p_text]. rewrite (short_from_str _ S). cbn [rbind].
    rewrite (map_result_all _ args ia); [cbn [rbind]; destruct args; [congruence|reflexivity]|].
    clear -F. induction F as [|x p l ps [RP EP] F IH]; constructor; auto. rewrite RP. exact EP.
  Qed.
  Lemma acc_x_define n sel ts : short_identifier n -> sel_item sel ts ->
    acc x_expr ([lit "$"; n; lit "("] ++ ts ++ [lit ")"]) xfollow (reads_as (XDefine n sel)).
  Proof.
    intros S L.
    assert (A : acc (call S_variable_set) (lit "$" :: [n] ++ lit "(" :: ts ++ [lit ")"]) any
      (one S_variable_set (fun p => exists q, p_inner p = [Pair S_identifier n []; q] /\ p_rule q = S_selector /\ parse_a_selector f64_parse q = Ok sel))).
    { refine (acc_weaken _ _ _ _ _ _ (acc_call S_variable_set _ any _ eq_refl
        (acc_tok_seq "$" _ ([n] ++ lit "(" :: ts ++ [lit ")"]) any any _ _ (acc_seq (call S_identifier) _ [n] (lit "(" :: ts ++ [lit ")"]) ready any any _ _ (acc_name n S)
          (acc_tok_seq "(" _ (ts ++ [lit ")"]) any any _ _ (acc_seq_tok (call S_selector) ")" ts sfollow any _ _ L _) _) _ _) _)) (fun _ _ => I) _).
      - solid_tac.
      - solid_tac.
      - solid_tac.
      - intros ts0. right. left. reflexivity.
      - auto.
      - intros ts0 _. solid_tac.
      - auto.
      - auto.
      - intros ps (p & -> & R & (a & b & E & -> & (q & -> & RQ & PQ))). exists p. split; [reflexivity|]. split; [exact R|]. exists q. auto. }
    refine (acc_weaken _ _ _ _ _ _ (of_alternative _ S_variable_set _ any _ _ eq_refl) (fun _ _ => I) _); [cbn [app] in *; pick_alt|].
    intros ps (p & -> & R & (i & E & RI & (q & E2 & RQ & PQ))). exists p. split; [reflexivity|]. split; [exact R|]. destruct p as [r0 t0 i0]. cbn in E. subst i0.
    destruct i as [r1 t1 i1]. cbn in RI, E2. subst r1 i1. rewrite parse_define_eq; [|reflexivity|exact RQ]. cbn [p_text]. rewrite (short_from_str _ S). cbn [rbind].
    rewrite PQ. reflexivity.
  Qed.
  Scheme says_expr_mind := Minimality for SelectorTextSpec.says_expr Sort Prop
    with says_selector_mind := Minimality for SelectorTextSpec.says_selector Sort Prop
    with says_arguments_mind := Minimality for SelectorTextSpec.says_arguments Sort Prop.
  Combined Scheme says_mind from says_expr_mind, says_selector_mind, says_arguments_mind.
  Lemma says_all :
    (forall x ts, says_expr f64_parse x ts -> acc x_expr ts xfollow (reads_as x))
    /\ (forall l ts, says_selector f64_parse l ts -> l <> [] /\ seq_ok l ts)
    /\ (forall l ts, says_arguments f64_parse l ts -> listed sel_item "," l ts).
  Proof.
    apply says_mind.
    - intros t. apply acc_type.
    - intros a ts. apply acc_x_attribute.
    - intros a ts. apply acc_x_scoped.
    - intros n ts. apply acc_x_neighbor.
    - intros n args ts S _ L. apply acc_x_function; assumption.
    - intros n sel ts S _ [NE L]. apply acc_x_define; [assumption|]. apply acc_selector; assumption.
    - intros n S. apply acc_x_reference, S.
    - intros x ts _ A. split; [discriminate|]. rewrite <- (app_nil_r ts). apply seq_cons; [exact A|intros ts0; apply sfollow_x|apply seq_nil].
    - intros x l ts ts' _ A SL [_ L]. split; [discriminate|]. apply seq_cons; [exact A| |exact L].
      intros ts0 _. assert (X : exists x2 t2 r2, says_expr f64_parse x2 t2 /\ ts' = t2 ++ r2).
      { destruct SL as [x2 t2 S2|x2 l2 t2 t3 S2 _]; [exists x2, t2, []; rewrite app_nil_r; auto|eauto 6]. }
      destruct X as (x2 & t2 & r2 & S2 & ->). destruct (expr_head x2 t2 S2) as (t & t' & -> & H). exact H.
    - intros sel ts _ [NE L]. apply listed_one. apply acc_selector; assumption.
    - intros sel l ts ts' _ [NE L] _ A. apply listed_more; [|exact A]. apply acc_selector; assumption.
  Qed.
End Values.

Lemma selector_text_read f64_parse sel t : selector_text f64_parse sel t -> parse_selector f64_parse t = Ok sel.
Proof.
  intros (ts & S & H). destruct (says_all f64_parse) as (_ & A & _). destruct (A sel ts S) as [NE L].
  rewrite <- (app_nil_r ts) in H. destruct (acc_selector f64_parse sel ts NE L [] t (or_introl eq_refl) H) as (ps & r & s' & E & S' & U & (p & -> & R & P)).
  apply spaced_nil in S'.
  assert (EV : ev false (PCall S_input) t (Some ([Pair S_input t ([p] ++ [Pair S_EOI [] []])], []))).
  { assert (Q := ev_rule false S_input t ([p] ++ [Pair S_EOI [] []]) []). rewrite app_nil_r in Q. apply Q. cbn [sub_atomic fst snd selector_rule PSeqs].
    refine (ev_seq _ _ _ _ _ [] t _ [] (ev_str _ _ [] t) _). cbn [skip].
    refine (ev_seq _ _ _ _ _ [p] r [Pair S_EOI [] []] [] E _). cbn [skip]. rewrite U, S'. ev_compute. }
  unfold parse_selector. destruct (parse_total t) as [x TOT]. revert TOT. generalize (selector_fuel t). intros fuel TOT. unfold parse_rule in *.
  destruct (run selector_grammar fuel false (PCall S_input) t) as [o|] eqn:E2; [|discriminate TOT].
  assert (EQ := evals_fun _ _ _ _ _ _ EV (ev_run _ fuel _ _ _ _ E2)). subst o. cbn [next rbind p_rule p_inner app]. rewrite R. exact P.
Qed.
