(** Parsing the text of a selector gives the selector. *)
From Verif.Model Require Import SelectorParse.
From Verif.Spec Require Import IdentitySpec SelectorSpec.
From Verif.Proofs Require Import BaseFacts IdentityFacts PegFacts SelectorGrammarFacts.

(** ** Numbers *)
Lemma digit_ch_digit d : (0 <= d < 10)%Z -> is_digit (digit_ch d) = true.
Proof.
  intros D. assert (d = 0 \/ d = 1 \/ d = 2 \/ d = 3 \/ d = 4 \/ d = 5 \/ d = 6 \/ d = 7 \/ d = 8 \/ d = 9)%Z as Q by lia.
  destruct Q as [-> | [-> | [-> | [-> | [-> | [-> | [-> | [-> | [-> | ->]]]]]]]]]; reflexivity.
Qed.
Lemma digit_ch_nonzero d : (0 < d < 10)%Z -> in_range 49 57 (digit_ch d) = true.
Proof.
  intros D. assert (d = 1 \/ d = 2 \/ d = 3 \/ d = 4 \/ d = 5 \/ d = 6 \/ d = 7 \/ d = 8 \/ d = 9)%Z as Q by lia.
  destruct Q as [-> | [-> | [-> | [-> | [-> | [-> | [-> | [-> | ->]]]]]]]]; reflexivity.
Qed.
Lemma dec_digits_whole f : forall n acc, (0 < n < 2 ^ Z.of_nat f)%Z ->
  exists c r, dec_digits f n acc = c :: r ++ acc /\ in_range 49 57 c = true /\ all_digits r.
Proof.
  induction f as [|f IH]; intros n acc N; [cbn in N; lia|].
  assert (M : (0 <= n mod 10 < 10)%Z) by (apply Z.mod_pos_bound; lia).
  assert (Dm := Z.div_mod n 10 ltac:(lia)).
  cbn [dec_digits]. destruct (n / 10 =? 0)%Z eqn:E.
  - apply Z.eqb_eq in E. exists (digit_ch (n mod 10)), []. split; [reflexivity|]. split; [apply digit_ch_nonzero; lia|constructor].
  - apply Z.eqb_neq in E. rewrite Nat2Z.inj_succ, Z.pow_succ_r in N by lia.
    destruct (IH (n / 10)%Z (digit_ch (n mod 10) :: acc)) as (c & r & X & C & D); [lia|].
    exists c, (r ++ [digit_ch (n mod 10)]). rewrite X, <- app_assoc. split; [reflexivity|]. split; [exact C|].
    apply Forall_app. split; [exact D|]. constructor; [apply digit_ch_digit; exact M|constructor].
Qed.
Lemma nat_to_str_whole n : (0 <= n)%Z -> whole (nat_to_str n).
Proof.
  intros N. unfold nat_to_str. destruct (Z.eq_dec n 0) as [-> | NZ]; [left; reflexivity|]. right.
  destruct (dec_digits_whole (S (Z.to_nat (Z.log2 n))) n []) as (c & r & X & C & D).
  - rewrite Nat2Z.inj_succ, Z2Nat.id by apply Z.log2_nonneg. assert (L := Z.log2_spec n ltac:(lia)). lia.
  - exists c, r. rewrite X, app_nil_r. auto.
Qed.
Lemma whole_digits s : whole s -> all_digits s.
Proof.
  intros [-> | (c & r & -> & C & D)]; constructor; auto.
  - unfold in_range, is_digit in *. apply andb_true_iff in C as [A B]. apply N.leb_le in A, B.
    unfold in_range. apply andb_true_iff. split; apply N.leb_le; lia.
Qed.
Lemma whole_nonempty s : whole s -> s <> [].
Proof. intros [-> | (c & r & -> & _)]; discriminate. Qed.
Lemma digits_val_fold s : all_digits s -> forall acc, digits_val s acc = Some (fold_left dec_step s acc).
Proof. induction 1 as [|c s C D IH]; intros acc; cbn; [reflexivity|]. rewrite C. apply IH. Qed.
Lemma digit_head_not c s : is_digit c = true -> 
  i64_from_str (c :: s) = match digits_val (c :: s) 0 with
                          | Some n => if ((i64_min <=? n) && (n <=? i64_max))%Z then Some n else None
                          | None => None end.
Proof. intros D. destruct c as [[] [] [] [] [] [] [] []]; try discriminate D; reflexivity. Qed.
Lemma i64_of_whole s : whole s ->
  i64_from_str s = let n := fold_left dec_step s 0%Z in if ((i64_min <=? n) && (n <=? i64_max))%Z then Some n else None.
Proof.
  intros W. assert (D := whole_digits _ W). destruct s as [|c s]; [destruct (whole_nonempty _ W eq_refl)|].
  inversion D as [|c0 s0 C D']; subst. rewrite digit_head_not, (digits_val_fold _ D) by exact C. reflexivity.
Qed.
Lemma i64_of_int n : (-9223372036854775808 <= n <= 9223372036854775807)%Z -> i64_from_str (int_to_str n) = Some n.
Proof.
  intros B. assert (T : ((i64_min <=? n) && (n <=? i64_max))%Z = true).
  { apply andb_true_iff. split; apply Z.leb_le; unfold i64_min, i64_max; lia. }
  unfold int_to_str. destruct (n <? 0)%Z eqn:E.
  - apply Z.ltb_lt in E. assert (W := nat_to_str_whole (- n) ltac:(lia)). assert (V := nat_to_str_val (- n) ltac:(lia)).
    assert (D := whole_digits _ W). unfold i64_from_str.
    destruct (nat_to_str (- n)) as [|c s]; [destruct (whole_nonempty _ W eq_refl)|].
    rewrite (digits_val_fold _ D), V. rewrite Z.opp_involutive, T. reflexivity.
  - apply Z.ltb_ge in E. rewrite (i64_of_whole _ (nat_to_str_whole n E)), (nat_to_str_val n E). cbv zeta. rewrite T. reflexivity.
Qed.
Lemma int_text n : exists sign w, int_to_str n = sign ++ w /\ (sign = [] \/ sign = lit "-") /\ whole w.
Proof.
  unfold int_to_str. destruct (n <? 0)%Z eqn:E.
  - apply Z.ltb_lt in E. exists (lit "-"), (nat_to_str (- n)). split; [reflexivity|]. split; [auto|apply nat_to_str_whole; lia].
  - apply Z.ltb_ge in E. exists [], (nat_to_str n). split; [reflexivity|]. split; [auto|apply nat_to_str_whole; lia].
Qed.
Lemma no_dot s : all_digits s -> existsb (Ascii.eqb ".") s = false.
Proof.
  induction 1 as [|c s C D IH]; [reflexivity|]. cbn [existsb]. rewrite IH.
  destruct c as [[] [] [] [] [] [] [] []]; try discriminate C; reflexivity.
Qed.

(** ** Names *)
Lemma short_is_identifier n : short_identifier n -> is_identifier n.
Proof.
  intros (c & r & [-> | ->] & A & W).
  - exists [], c, r. auto.
  - exists ["_"%char], c, r. split; [reflexivity|]. split; [constructor; [reflexivity|constructor]|auto].
Qed.
Lemma short_from_str n : short_identifier n -> ident_from_str n = Ok n.
Proof.
  intros S. apply short_is_identifier, ident_is_valid_spec in S. unfold ident_from_str. rewrite S. reflexivity.
Qed.

Ltac pick K q1 q2 :=
  eexists; split;
  [apply (K q1 q2); [reflexivity|reflexivity|intros ?|intros ?];
   cbn [snd selector_rule PAlts]; repeat first [assumption | apply ev_alt1; assumption | apply ev_alt2; [ev_compute|]]
  |reflexivity].
Section Facts.
  Variable f64_str : Z -> str.
  Variable f64_parse : str -> Z.
  Notation value_printable := (value_printable f64_str f64_parse).
  Notation sel_value_display := (sel_value_display f64_str).
  Notation parse_value := (parse_value f64_parse).

  (** ** Values *)
  (** [p] is what rule [q] matches on [t], as long as [rest] follows. *)
  Definition matched (q : srule) (t rest : str) (p : spair) : Prop :=
    p_rule p = q /\ ev false (call q) (t ++ rest) (Some ([p], rest)).

  Lemma number_head sign w rest : sign = [] \/ sign = lit "-" -> whole w ->
    ev false (call S_text) ((sign ++ w) ++ rest) None.
  Proof.
    intros [-> | ->] W; [|ev_compute]. destruct W as [-> | (c & r & -> & C & _)]; [ev_compute|].
    exists 20. destruct c as [[] [] [] [] [] [] [] []]; try discriminate C; reflexivity.
  Qed.
  Lemma short_not_text n rest : short_identifier n -> ev false (call S_text) (n ++ rest) None /\ ev false (call S_number) (n ++ rest) None.
  Proof.
    intros S. destruct (short_head n S) as (c & r & -> & A). split.
    - exists 20. destruct A as [A| ->]; [|reflexivity]. destruct c as [[] [] [] [] [] [] [] []]; try discriminate A; reflexivity.
    - exists 20. destruct A as [A| ->]; [|reflexivity]. destruct c as [[] [] [] [] [] [] [] []]; try discriminate A; reflexivity.
  Qed.
  Lemma ev_value_number t rest : ev false (call S_text) (t ++ rest) None ->
    ev false (call S_number) (t ++ rest) (Some ([Pair S_number t []], rest)) ->
    matched S_value t rest (Pair S_value t [Pair S_number t []]).
  Proof.
    intros A B. split; [reflexivity|]. refine (ev_rule false S_value t _ rest _). cbn [sub_atomic fst snd selector_rule PAlts].
    apply ev_alt2; [exact A|]. apply ev_alt1. exact B.
  Qed.
  Lemma ev_absolute ids n rest : ids <> [] -> Forall short_identifier ids -> short_identifier n -> follow rest ->
    ev false (call S_absolute_root_shape_id) ((join ["."%char] ids ++ "#"%char :: n) ++ rest)
      (Some ([Pair S_absolute_root_shape_id (join ["."%char] ids ++ "#"%char :: n) []], rest)).
  Proof.
    intros NE I S F. refine (ev_rule false S_absolute_root_shape_id _ [] rest _). cbn [sub_atomic fst snd selector_rule PSeqs].
    rewrite <- app_assoc. cbn [app].
    refine (ev_seq _ _ _ _ _ [] ("#"%char :: n ++ rest) [] rest _ _).
    - refine (ev_namespace ids _ NE I (hash_stop _) _). ev_compute.
    - cbn [skip]. refine (ev_seq _ _ _ _ _ [] (n ++ rest) [] rest _ _); [ev_compute|].
      exact (ev_identifier true n rest S (follow_stop _ F)).
  Qed.
  Lemma ev_not_absolute n rest : short_identifier n -> follow rest -> ev false (call S_absolute_root_shape_id) (n ++ rest) None.
  Proof.
    intros S F. apply ev_call_fail. cbn [sub_atomic fst snd selector_rule selector_grammar g_rule PSeqs].
    refine (ev_seq_fail2 _ _ _ _ _ [] rest _ _); [|follow_cases F; ev_compute].
    assert (Q : ev true (call S_namespace) (join ["."%char] [n] ++ rest) (Some ([], rest))).
    { apply ev_namespace; [discriminate|auto|apply follow_stop, F|follow_cases F; ev_compute]. }
    exact Q.
  Qed.
  Lemma ev_root t rest p : ev false (call S_root_shape_id) (t ++ rest) (Some ([p], rest)) ->
    ev false (call S_text) (t ++ rest) None -> ev false (call S_number) (t ++ rest) None ->
    matched S_value t rest (Pair S_value t [p]).
  Proof.
    intros A B C. split; [reflexivity|]. refine (ev_rule false S_value t _ rest _). cbn [sub_atomic fst snd selector_rule PAlts].
    apply ev_alt2; [exact B|]. apply ev_alt2; [exact C|]. exact A.
  Qed.
  Lemma ev_value v rest : value_printable v -> follow rest ->
    exists p, matched S_value (sel_value_display v) rest p /\ parse_value p = Ok v.
  Proof.
    destruct v as [s|[n|b]|n|id]; cbn [value_printable SelectorSpec.value_printable Selector.sel_value_display number_display].
    - intros [NE Q] F. eexists. split.
      + split; [|refine (ev_rule false S_value _ _ rest _); cbn [sub_atomic fst snd selector_rule PAlts]; apply ev_alt1].
        2:{ rewrite <- !app_assoc. apply ev_text; assumption. }
        reflexivity.
      + unfold SelectorParse.parse_value. cbn [seen fst snd selector_rule p_inner next rbind p_rule p_text].
        do 2 f_equal. cbn [app skipn length]. rewrite app_length. cbn [length].
        replace (S (length s + 1) - 2) with (length s + 0) by lia. rewrite firstn_app_2. cbn [firstn]. apply app_nil_r.
    - intros B F. destruct (int_text n) as (sign & w & E & S & W). eexists. split.
      + rewrite E. apply ev_value_number; [apply number_head; assumption|apply ev_integer; assumption].
      + unfold SelectorParse.parse_value. cbn [p_inner next rbind p_rule p_text]. rewrite <- E.
        rewrite (i64_of_int n B). rewrite E.
        replace (existsb (Ascii.eqb ".") (sign ++ w)) with false; [reflexivity|]. rewrite existsb_app, (no_dot _ (whole_digits _ W)).
        destruct S as [-> | ->]; reflexivity.
    - intros [D0 E] F. destruct D0 as (sign & w & fr & T & S & W & NE & D). eexists. split.
      + rewrite T. apply ev_value_number.
        * assert (Q := number_head sign w (("."%char :: fr) ++ rest) S W). rewrite <- !app_assoc in *. exact Q.
        * apply ev_decimal; [exists sign, w, fr; auto|exact F].
      + unfold SelectorParse.parse_value. cbn [p_inner next rbind p_rule p_text].
        rewrite <- T, E. rewrite T. rewrite !existsb_app. cbn [existsb]. rewrite !orb_true_r. reflexivity.
    - intros S F. destruct (short_not_text n rest S) as [A B]. eexists. split.
      + apply ev_root; [|exact A|exact B]. refine (ev_rule false S_root_shape_id _ _ rest _). cbn [sub_atomic fst snd selector_rule PAlts].
        apply ev_alt2; [apply ev_not_absolute; assumption|]. apply ev_identifier; [exact S|apply follow_stop, F].
      + unfold SelectorParse.parse_value. cbn [seen fst snd selector_rule p_inner next rbind p_rule p_text].
        rewrite (short_from_str _ S). reflexivity.
    - intros (M & S & ids & NE & I & N) F. destruct id as [ns nm mb]. cbn in M, S, N. subst mb ns. eexists. split.
      + replace (sid_display _) with (join ["."%char] ids ++ "#"%char :: nm); [|rewrite sid_display_text; unfold id_text; cbn [sid_ns sid_name sid_member]; rewrite app_nil_r; reflexivity].
        assert (H : exists x r, (join ["."%char] ids ++ "#"%char :: nm) = x ++ r /\ short_identifier x).
        { destruct ids as [|x l]; [congruence|]. inversion I; subst. rewrite join_dotted. rewrite <- app_assoc. eauto. }
        destruct H as (x & r & H & X). destruct (short_not_text x (r ++ rest) X) as [A B].
        apply ev_root; [|rewrite H, <- app_assoc; exact A|rewrite H, <- app_assoc; exact B].
        refine (ev_rule false S_root_shape_id _ _ rest _). cbn [sub_atomic fst snd selector_rule PAlts].
        apply ev_alt1. apply ev_absolute; assumption.
      + unfold SelectorParse.parse_value. cbn [seen fst snd selector_rule p_inner next rbind p_rule p_text].
        assert (V : valid_id (SID (join ["."%char] ids) nm None)).
        { repeat split; [|apply short_is_identifier, S]. exists ids. split; [exact NE|]. split; [|reflexivity].
          apply (Forall_impl _ short_is_identifier), I. }
        assert (E := sid_from_str_complete _ V). unfold id_text in E. cbn [sid_ns sid_name sid_member] in E. rewrite app_nil_r in E.
        rewrite E. reflexivity.
  Qed.

  (** ** Sequences, up to the blanks that follow *)
  Notation unblank := (drop_space selector_grammar).
  Definition starts (s : str) : Prop := unblank s = s.
  Definition loose (q : srule) (t rest : str) (p : spair) : Prop :=
    p_rule p = q /\ exists r, ev false (call q) (t ++ rest) (Some ([p], r)) /\ unblank r = unblank rest.
  Lemma matched_loose q t rest p : matched q t rest p -> loose q t rest p.
  Proof. intros [A B]. split; [exact A|]. exists rest. auto. Qed.
  Lemma unblank_idem s : unblank (unblank s) = unblank s.
  Proof.
    induction s as [|c s IH]; [reflexivity|]. cbn [drop_space]. destruct (g_space selector_grammar c) eqn:E; [exact IH|].
    cbn [drop_space]. rewrite E. reflexivity.
  Qed.
  Lemma seq_loose a b s ps r1 rest qs r2 : ev false a s (Some (ps, r1)) -> unblank r1 = unblank rest ->
    ev false b (unblank rest) (Some (qs, r2)) -> ev false (PSeq a b) s (Some (ps ++ qs, r2)).
  Proof. intros A E B. refine (ev_seq _ _ _ _ _ ps r1 qs r2 A _). cbn [skip]. rewrite E. exact B. Qed.
  Lemma star_of_more a s ps r : ev false (PMore a) s (Some (ps, r)) ->
    exists r2, ev false (PStar a) (unblank s) (Some (ps, r2)) /\ unblank r2 = unblank r.
  Proof.
    intros [f F]. destruct f as [|f]; [discriminate F|]. cbn [run skip] in F.
    destruct (run selector_grammar f false a (unblank s)) as [[[qs s1]|]|] eqn:A; [| |discriminate F].
    - exists r. split; [|reflexivity]. exists (S f). cbn [run]. rewrite A. exact F.
    - injection F as <- <-. exists (unblank s). split; [|apply unblank_idem]. exists (S f). cbn [run]. rewrite A. reflexivity.
  Qed.
  (** Rules that match a fixed text. *)
  Lemma tok_rule q x rest : selector_rule q = (Normal, PStr x) -> matched q x rest (Pair q x []).
  Proof.
    intros E. split; [reflexivity|]. assert (Q := ev_rule false q x [] rest). rewrite E in Q. apply Q. cbn. apply ev_str.
  Qed.

  Section Lists.
    Context {X : Type}.
    Variables (q : srule) (sep glue : string) (d : X -> str) (Q : X -> spair -> Prop) (rest : str) (okrest : str -> Prop).
    Hypothesis glue_sep : forall s, starts s -> exists u, unblank (lit glue ++ s) = lit sep ++ u /\ unblank u = s.
    Hypothesis glue_ok : forall s, starts s -> okrest (lit glue ++ s).
    Hypothesis rest_ok : okrest rest.
    Hypothesis rest_sep : ev false (tok sep) (unblank rest) None.
    Definition item_ok (x : X) : Prop :=
      (forall s, starts (d x ++ s)) /\ forall s, okrest s -> exists p, loose q (d x) s p /\ Q x p.
    Definition glued (l : list X) : str := concat (map (fun x => lit glue ++ d x) l).
    Lemma join_glued l : forall x, join (lit glue) (map d (x :: l)) = d x ++ glued l.
    Proof.
      induction l as [|y l IH]; intros x; [symmetry; apply app_nil_r|].
      change (join (lit glue) (map d (x :: y :: l))) with (d x ++ lit glue ++ join (lit glue) (map d (y :: l))).
      rewrite IH. unfold glued. cbn [map concat]. rewrite <- !app_assoc. reflexivity.
    Qed.
    Lemma list_more l : Forall item_ok l -> forall r, unblank r = unblank (glued l ++ rest) ->
      okrest (glued l ++ rest) /\ exists ps r', Forall2 (fun x p => p_rule p = q /\ Q x p) l ps
        /\ ev false (PMore (PSeq (tok sep) (call q))) r (Some (ps, r')) /\ unblank r' = unblank rest.
    Proof.
      induction 1 as [|x l [Sx Mx] L IH]; intros r E.
      - split; [exact rest_ok|]. exists [], r. split; [constructor|]. split; [|exact E].
        apply ev_more_nil. cbn [skip]. change (glued [] ++ rest) with rest in E. rewrite E. apply ev_seq_fail1, rest_sep.
      - unfold glued in *. cbn [map concat] in *. rewrite <- !app_assoc in *. fold (glued l) in *.
        destruct (glue_sep (d x ++ glued l ++ rest) (Sx _)) as (u & U1 & U2).
        split; [apply glue_ok, Sx|].
        destruct (IH _ eq_refl) as (OK & _). destruct (Mx _ OK) as (p & (R & r1 & M & N) & P).
        destruct (IH r1 N) as (_ & ps & r' & F & MM & N').
        exists (p :: ps), r'. split; [constructor; auto|]. split; [|exact N'].
        refine (ev_more_cons _ _ _ _ [p] r1 ps r' _ MM). cbn [skip]. rewrite E, U1.
        refine (ev_seq _ _ _ _ _ [] u [p] r1 (ev_str _ _ _ _) _). cbn [skip]. rewrite U2. exact M.
    Qed.
    Lemma ev_list l : l <> [] -> Forall item_ok l ->
      starts (join (lit glue) (map d l) ++ rest) /\
      exists ps r', Forall2 (fun x p => p_rule p = q /\ Q x p) l ps
        /\ ev false (list_of sep (call q)) (join (lit glue) (map d l) ++ rest) (Some (ps, r')) /\ unblank r' = unblank rest.
    Proof.
      intros NE A. destruct l as [|x l]; [congruence|]. inversion A as [|x0 l0 [Sx Mx] A']; subst. rewrite join_glued, <- app_assoc.
      split; [apply Sx|].
      destruct (list_more l A' _ eq_refl) as (OK & _). destruct (Mx _ OK) as (p & (R & r1 & M & N) & P).
      destruct (list_more l A' r1 N) as (_ & ps & r' & F & MM & N').
      destruct (star_of_more _ _ _ _ MM) as (r2 & ST & N2).
      exists (p :: ps), r2. split; [constructor; auto|]. split; [|congruence].
      refine (ev_seq _ _ _ _ _ [p] r1 ps r2 M _). exact ST.
    Qed.
  End Lists.
  Lemma map_result_all {X} (f : spair -> result X) l ps : Forall2 (fun x p => f p = Ok x) l ps -> map_result f ps = Ok l.
  Proof. induction 1 as [|x p l ps E F IH]; [reflexivity|]. cbn [map_result]. rewrite E. cbn [rbind]. rewrite IH. reflexivity. Qed.
  (** The separators. *)
  Lemma comma_glue s : starts s -> exists u, unblank (lit ", " ++ s) = lit "," ++ u /\ unblank u = s.
  Proof. intros E. exists (" "%char :: s). split; [reflexivity|exact E]. Qed.
  Lemma bar_glue s : starts s -> exists u, unblank (lit "|" ++ s) = lit "|" ++ u /\ unblank u = s.
  Proof. intros E. exists s. split; [reflexivity|exact E]. Qed.
  Lemma and_glue s : starts s -> exists u, unblank (lit " && " ++ s) = lit "&&" ++ u /\ unblank u = s.
  Proof. intros E. exists (" "%char :: s). split; [reflexivity|exact E]. Qed.

  (** ** What the pieces start with *)
  Lemma starts_short n s : short_identifier n -> starts (n ++ s).
  Proof.
    intros H. destruct (short_head n H) as (c & r & -> & A). unfold starts. destruct A as [A | ->]; [|reflexivity].
    destruct c as [[] [] [] [] [] [] [] []]; try discriminate A; reflexivity.
  Qed.
  Lemma starts_number sign w s : sign = [] \/ sign = lit "-" -> whole w -> starts ((sign ++ w) ++ s).
  Proof.
    intros [-> | ->] W; [|reflexivity]. destruct W as [-> | (c & r & -> & C & _)]; [reflexivity|]. unfold starts.
    destruct c as [[] [] [] [] [] [] [] []]; try discriminate C; reflexivity.
  Qed.
  Lemma starts_value v s : value_printable v -> starts (sel_value_display v ++ s).
  Proof.
    destruct v as [t|[n|b]|n|id]; cbn [SelectorSpec.value_printable Selector.sel_value_display number_display].
    - reflexivity.
    - intros _. destruct (int_text n) as (sign & w & -> & S & W). apply starts_number; assumption.
    - intros [(sign & w & fr & -> & S & W & _) _]. assert (Q := starts_number sign w (("."%char :: fr) ++ s) S W).
      rewrite <- !app_assoc in *. exact Q.
    - apply starts_short.
    - intros (M & S & ids & NE & I & N). rewrite sid_display_text. unfold id_text. rewrite N, <- app_assoc.
      destruct ids as [|x l]; [congruence|]. inversion I; subst. rewrite join_dotted, <- app_assoc. apply starts_short. assumption.
  Qed.
  Lemma starts_segment p s : segment_shaped value_printable p -> starts (segment_display f64_str p ++ s).
  Proof. destruct p as [v|n]; cbn; [apply starts_value|reflexivity]. Qed.

  (** ** Paths and keys *)
  Lemma seq_tok x b s qs r : ev false b (unblank s) (Some (qs, r)) -> ev false (PSeq (tok x) b) (lit x ++ s) (Some (qs, r)).
  Proof. intros B. exact (ev_seq _ _ _ _ _ [] s qs r (ev_str _ _ _ _) B). Qed.
  Lemma ev_segment p rest : segment_shaped value_printable p -> follow rest ->
    exists q, matched S_path_segment (segment_display f64_str p) rest q /\ parse_path_segment f64_parse q = Ok p.
  Proof.
    destruct p as [v|n]; cbn [segment_shaped segment_display].
    - intros V F. destruct (ev_value v rest V F) as (q & [R M] & P). eexists. split.
      + split; [|refine (ev_rule false S_path_segment _ _ rest _); cbn [sub_atomic fst snd selector_rule]; apply ev_alt1; exact M].
        reflexivity.
      + unfold parse_path_segment. cbn [seen fst snd selector_rule p_inner next rbind]. rewrite R, P. reflexivity.
    - intros S F. eexists. split.
      + split; [|refine (ev_rule false S_path_segment _ _ rest _); cbn [sub_atomic fst snd selector_rule]; apply ev_alt2; [ev_compute|]].
        2:{ refine (ev_rule false S_function_property _ _ rest _); cbn [sub_atomic fst snd selector_rule PSeqs].
            rewrite <- !app_assoc. apply seq_tok. rewrite (starts_short n _ S).
            refine (ev_seq _ _ _ _ _ _ (lit ")" ++ rest) [] rest (ev_identifier false n _ S _) _); [apply follow_stop; reflexivity|].
            exact (ev_str _ _ _ _). }
        reflexivity.
      + unfold parse_path_segment. cbn [seen fst snd selector_rule p_inner next rbind p_rule p_text app].
        rewrite (short_from_str _ S). reflexivity.
  Qed.
  Definition no_bar (rest : str) : Prop := ev false (tok "|") (unblank rest) None.
  Lemma ev_path l rest : l <> [] -> Forall (segment_shaped value_printable) l -> follow rest -> no_bar rest ->
    starts (path_display f64_str l ++ rest) /\
    exists p, loose S_path (path_display f64_str l) rest p /\ parse_path f64_parse [p] = Ok l.
  Proof.
    intros NE A F B.
    destruct (ev_list S_path_segment "|" "|" (segment_display f64_str) (fun x p => parse_path_segment f64_parse p = Ok x)
                rest follow bar_glue) with (l := l) as (S & ps & r & P & M & N); auto.
    - reflexivity.
    - apply (Forall_impl _ (P := segment_shaped value_printable)); [|exact A]. intros x V. split.
      + intros s. apply starts_segment, V.
      + intros s FS. destruct (ev_segment x s V FS) as (p & M & Q). exists p. split; [apply matched_loose, M|exact Q].
    - split; [exact S|]. eexists. split.
      + split; [|exists r; split; [refine (ev_rule_any false S_path _ r ps _); exact M|exact N]]. reflexivity.
      + cbn [parse_path seen fst snd selector_rule p_rule p_inner].
        rewrite (map_result_all (parse_path_segment f64_parse) l ps); [cbn [rbind]; rewrite app_nil_r; reflexivity|].
        clear -P. induction P as [|x p l ps [_ E] P IH]; constructor; auto.
  Qed.
  Lemma ev_key k rest : key_shaped value_printable k -> follow rest -> no_bar rest ->
    exists p, loose S_key (key_display f64_str k) rest p /\ parse_key f64_parse p = Ok k.
  Proof.
    destruct k as [n path]. intros [S A] F B. cbn [key_id key_path] in *. unfold key_display. cbn [key_id key_path].
    destruct path as [|x l].
    - rewrite app_nil_r. eexists. split.
      + split; [|exists (unblank rest); split; [refine (ev_rule_any false S_key _ _ _ _); cbn [sub_atomic fst snd selector_rule]|apply unblank_idem]].
        2:{ refine (ev_seq _ _ _ _ _ _ _ _ _ (ev_identifier false n rest S (follow_stop _ F)) _). cbn [skip].
            apply ev_opt2, ev_seq_fail1, B. }
        reflexivity.
      + unfold parse_key. cbn [seen fst snd selector_rule p_inner next rbind p_rule p_text app].
        rewrite (short_from_str _ S). reflexivity.
    - destruct (ev_path (x :: l) rest ltac:(discriminate) A F B) as (ST & p & (R & r & M & N) & P).
      remember (path_display f64_str (x :: l)) as t eqn:Et.
      eexists. split.
      + split; [|exists r; split; [refine (ev_rule_any false S_key _ _ _ _); cbn [sub_atomic fst snd selector_rule]|exact N]].
        2:{ rewrite <- !app_assoc.
            refine (ev_seq _ _ _ _ _ _ (lit "|" ++ t ++ rest) [p] r (ev_identifier false n _ S _) _); [apply follow_stop; reflexivity|].
            apply ev_opt1. cbn [skip]. change (unblank (lit "|" ++ t ++ rest)) with (lit "|" ++ t ++ rest).
            apply seq_tok. rewrite ST. exact M. }
        reflexivity.
      + unfold parse_key. cbn [seen fst snd selector_rule p_inner next rbind p_rule p_text app].
        rewrite (short_from_str _ S). cbn [unwrap_result rbind]. rewrite P. reflexivity.
  Qed.

  (** ** Comparisons *)
  Lemma ev_comparator c t : comparator_printable c ->
    exists p, matched S_comparator (comparator_display c) (" "%char :: t) p /\ parse_comparator p = Ok c.
  Proof.
    intros [NG NL].
    assert (K : forall q1 q2 x, selector_rule q2 = (Normal, PStr x) ->
      fst (selector_rule q1) = Normal ->
      (ev false (call q2) (x ++ " "%char :: t) (Some ([Pair q2 x []], " "%char :: t)) ->
         ev false (snd (selector_rule q1)) (x ++ " "%char :: t) (Some ([Pair q2 x []], " "%char :: t))) ->
      (ev false (call q1) (x ++ " "%char :: t) (Some ([Pair q1 x [Pair q2 x []]], " "%char :: t)) ->
         ev false (snd (selector_rule S_comparator)) (x ++ " "%char :: t) (Some ([Pair q1 x [Pair q2 x []]], " "%char :: t))) ->
      matched S_comparator x (" "%char :: t) (Pair S_comparator x [Pair q1 x [Pair q2 x []]])).
    { intros q1 q2 x E2 E1 H1 H2. split; [reflexivity|]. refine (ev_rule false S_comparator x _ _ _). apply H2.
      assert (Q := ev_rule false q1 x [Pair q2 x []] (" "%char :: t)). rewrite E1 in Q. apply Q. apply H1.
      exact (proj2 (tok_rule q2 x _ E2)). }
    destruct c; try congruence.
    - pick K S_string_comparator S_string_eq.
    - pick K S_string_comparator S_string_neq.
    - pick K S_string_comparator S_string_starts.
    - pick K S_string_comparator S_string_ends.
    - pick K S_string_comparator S_string_in.
    - pick K S_string_comparator S_string_exist.
    - pick K S_numeric_comparator S_number_gt.
    - pick K S_numeric_comparator S_number_lt.
    - pick K S_projection_comparator S_projection_eq.
    - pick K S_projection_comparator S_projection_neq.
    - pick K S_projection_comparator S_projection_subset.
    - pick K S_projection_comparator S_projection_proper.
  Qed.

  (** ** Attributes *)
  Lemma value_item l : Forall value_printable l ->
    Forall (item_ok S_value sel_value_display (fun x p => parse_value p = Ok x) follow) l.
  Proof.
    apply Forall_impl. intros x V. split; [intros s; apply starts_value, V|].
    intros s F. destruct (ev_value x s V F) as (p & M & P). exists p. split; [apply matched_loose, M|exact P].
  Qed.
  (** What follows a list of values: not a comma. *)
  Definition no_comma (rest : str) : Prop := ev false (tok ",") (unblank rest) None.
  Definition no_suffix (rest : str) : Prop := ev false (call S_case_suffix) (unblank rest) None.
  (** The suffix. *)
  Lemma ev_suffix b rest : no_suffix rest ->
    exists ps r, ev false (POpt (call S_case_suffix)) (unblank (insensitive_display b ++ rest)) (Some (ps, r)) /\ unblank r = unblank rest
      /\ ps = if b then [Pair S_case_suffix (lit "i") []] else [].
  Proof.
    intros F. destruct b; cbn [insensitive_display].
    - exists [Pair S_case_suffix (lit "i") []], rest. split; [|auto].
      apply ev_opt1. exact (proj2 (tok_rule S_case_suffix (lit "i") rest eq_refl)).
    - exists [], (unblank rest). split; [apply ev_opt2, F|]. split; [apply unblank_idem|reflexivity].
  Qed.
  Lemma suffix_follow b rest : follow rest -> follow (insensitive_display b ++ rest).
  Proof. destruct b; cbn; auto. Qed.
  Lemma suffix_comma b rest : no_comma rest -> no_comma (insensitive_display b ++ rest).
  Proof. destruct b; cbn; [|auto]. intros _. unfold no_comma. ev_compute. Qed.
  Lemma forall2_parse {X} (q : srule) (f : spair -> result X) (value : srule -> bool) l ps : value q = true ->
    Forall2 (fun x p => p_rule p = q /\ f p = Ok x) l ps ->
    map_result (fun q => if value (p_rule q) then f q else unexpected "values") ps = Ok l.
  Proof.
    intros V F. apply map_result_all. induction F as [|x p l ps [R E] F IH]; constructor; auto. rewrite R, V. exact E.
  Qed.
  Lemma ev_comparison c rest : comparison_shaped value_printable c -> follow rest -> no_comma rest -> no_suffix rest ->
    exists p r, p_rule p = S_attr_comparison /\
      ev false (call S_attr_comparison) (unblank (comparison_display f64_str c ++ rest)) (Some ([p], r)) /\ unblank r = unblank rest
      /\ parse_attr_comparison f64_parse p = Ok c.
  Proof.
    destruct c as [cmp vs b]. intros (C & NE & V) F NC NS. cbn [cp_comparator cp_values cp_insensitive] in *.
    unfold comparison_display. cbn [cp_comparator cp_values cp_insensitive].
    rewrite <- !app_assoc. remember (join (lit ", ") (map sel_value_display vs)) as t eqn:Et.
    destruct (ev_comparator cmp (t ++ insensitive_display b ++ rest) C) as (pc & [RC MC] & PC).
    destruct (ev_list S_value "," ", " sel_value_display (fun x p => parse_value p = Ok x) (insensitive_display b ++ rest) follow comma_glue)
      with (l := vs) as (ST & ps & r & P & M & N); auto; [reflexivity|apply suffix_follow, F|apply suffix_comma, NC|apply value_item, V|].
    rewrite <- Et in ST, M.
    destruct (ev_suffix b rest NS) as (qs & r2 & M2 & N2 & Eq).
    eexists. exists r2. split; [|split; [refine (ev_rule_any false S_attr_comparison _ r2 _ _); cbn [sub_atomic fst snd selector_rule PSeqs]|]].
    2:{ replace (unblank (lit " " ++ comparator_display cmp ++ lit " " ++ t ++ insensitive_display b ++ rest))
          with (comparator_display cmp ++ " "%char :: t ++ insensitive_display b ++ rest) by (destruct cmp; reflexivity).
        refine (ev_seq _ _ _ _ _ [pc] _ _ r2 MC _). cbn [skip]. change (unblank (" "%char :: t ++ insensitive_display b ++ rest)) with (unblank (t ++ insensitive_display b ++ rest)).
        rewrite ST. refine (seq_loose _ _ _ _ r (insensitive_display b ++ rest) _ r2 _ N M2).
        refine (ev_rule_any false S_attr_values _ r ps _). exact M. }
    - reflexivity.
    - split; [exact N2|]. unfold parse_attr_comparison. cbn [seen fst snd selector_rule p_inner next rbind app].
      rewrite PC. cbn [rbind parse_values p_rule p_inner]. rewrite (forall2_parse S_value parse_value (fun r => match r with S_value => true | _ => false end) vs ps eq_refl P). cbn [rbind].
      subst qs. destruct b; cbn [parse_values p_rule rbind fst snd]; rewrite ?app_nil_r; reflexivity.
  Qed.
  Lemma not_at_attr s : ev false (call S_attr) (lit "[@" ++ s) None.
  Proof. ev_compute. Qed.
  Lemma ev_attribute a rest : attribute_shaped value_printable a ->
    exists p, matched S_attr (attribute_display f64_str a) rest p /\ parse_attr f64_parse p = Ok a.
  Proof.
    destruct a as [k [c|]]; intros [K C]; cbn [at_key at_comparison] in *; unfold attribute_display; cbn [at_key at_comparison].
    - destruct (ev_comparison c (lit "]" ++ rest) C) as (pc & rc & RC & MC & NC & PC); [reflexivity|unfold no_comma; ev_compute|unfold no_suffix; ev_compute|].
      destruct (ev_key k (comparison_display f64_str c ++ lit "]" ++ rest) K) as (pk & (RK & rk & MK & NK) & PK).
      { reflexivity. }
      { unfold no_bar. destruct c as [cmp vs b]. destruct C as ([NG NL] & _). cbn in NG, NL.
        unfold comparison_display. cbn [cp_comparator cp_values cp_insensitive]. destruct cmp; ev_compute. }
      eexists. split.
      + split; [|refine (ev_rule false S_attr _ _ rest _); cbn [sub_atomic fst snd selector_rule PSeqs]].
        2:{ rewrite <- !app_assoc. apply seq_tok.
            replace (unblank (key_display f64_str k ++ comparison_display f64_str c ++ lit "]" ++ rest))
              with (key_display f64_str k ++ comparison_display f64_str c ++ lit "]" ++ rest).
            2:{ symmetry. unfold key_display. rewrite <- app_assoc. apply starts_short, K. }
            refine (seq_loose _ _ _ [pk] rk (comparison_display f64_str c ++ lit "]" ++ rest) _ rest MK NK _).
            refine (seq_loose _ _ _ [pc] rc (lit "]" ++ rest) [] rest (ev_opt1 _ _ _ _ _ MC) NC _).
            exact (ev_str _ _ (lit "]") rest). }
        reflexivity.
      + unfold parse_attr. cbn [seen fst snd selector_rule p_inner next rbind app].
        rewrite RK, PK. cbn [rbind]. rewrite RC, PC. reflexivity.
    - destruct (ev_key k (lit "]" ++ rest) K) as (pk & (RK & rk & MK & NK) & PK); [reflexivity|unfold no_bar; ev_compute|].
      eexists. split.
      + split; [|refine (ev_rule false S_attr _ _ rest _); cbn [sub_atomic fst snd selector_rule PSeqs]].
        2:{ rewrite <- !app_assoc. apply seq_tok. cbn [app].
            replace (unblank (key_display f64_str k ++ lit "]" ++ rest)) with (key_display f64_str k ++ lit "]" ++ rest).
            2:{ symmetry. unfold key_display. rewrite <- app_assoc. apply starts_short, K. }
            refine (seq_loose _ _ _ [pk] rk (lit "]" ++ rest) [] rest MK NK _).
            refine (seq_loose _ _ _ [] (lit "]" ++ rest) (lit "]" ++ rest) [] rest _ eq_refl _); [apply ev_opt2; ev_compute|].
            exact (ev_str _ _ (lit "]") rest). }
        reflexivity.
      + unfold parse_attr. cbn [seen fst snd selector_rule p_inner next rbind app].
        rewrite RK, PK. reflexivity.
  Qed.

  (** ** Scoped attributes *)
  Notation sv_display := (scoped_value_display f64_str).
  Notation sv_ok := (scoped_value_shaped value_printable).
  Lemma starts_scoped_value v s : sv_ok v -> starts (sv_display v ++ s).
  Proof. destruct v as [v|p]; cbn [scoped_value_shaped scoped_value_display]; [apply starts_value|reflexivity]. Qed.
  Lemma ev_scoped_value v rest : sv_ok v -> follow rest ->
    exists p, matched S_scoped_value (sv_display v) rest p /\ parse_scoped_value f64_parse p = Ok v.
  Proof.
    destruct v as [v|l]; cbn [scoped_value_shaped scoped_value_display].
    - intros V F. destruct (ev_value v rest V F) as (q & [R M] & P). eexists. split.
      + split; [|refine (ev_rule false S_scoped_value _ _ rest _); cbn [sub_atomic fst snd selector_rule]; apply ev_alt1; exact M].
        reflexivity.
      + unfold parse_scoped_value. cbn [seen fst snd selector_rule p_inner next rbind]. rewrite R, P. reflexivity.
    - intros [NE V] F. destruct (ev_path l (lit "}" ++ rest) NE V) as (ST & p & (R & r & M & N) & P); [reflexivity|unfold no_bar; ev_compute|].
      eexists. split.
      + split; [|refine (ev_rule false S_scoped_value _ _ rest _); cbn [sub_atomic fst snd selector_rule]; apply ev_alt2; [ev_compute|]].
        2:{ refine (ev_rule false S_context_value _ _ rest _); cbn [sub_atomic fst snd selector_rule PSeqs].
            rewrite <- !app_assoc. apply seq_tok. rewrite ST.
            refine (seq_loose _ _ _ [p] r (lit "}" ++ rest) [] rest M N _). exact (ev_str _ _ (lit "}") rest). }
        reflexivity.
      + unfold parse_scoped_value. cbn [seen fst snd selector_rule p_inner next rbind p_rule p_text app].
        rewrite P. reflexivity.
  Qed.
  Lemma ev_assertion a rest : assertion_shaped value_printable a -> follow rest -> no_comma rest -> no_suffix rest ->
    exists p, loose S_scoped_assertion (assertion_display f64_str a) rest p /\ parse_scoped_assertion f64_parse p = Ok a.
  Proof.
    destruct a as [lhs cmp vs b]. intros (L & C & NE & V) F NC NS. cbn [as_lhs as_comparator as_rhs as_insensitive] in *.
    unfold assertion_display. cbn [as_lhs as_comparator as_rhs as_insensitive].
    remember (join (lit ", ") (map sv_display vs)) as t eqn:Et.
    destruct (ev_scoped_value lhs (lit " " ++ comparator_display cmp ++ lit " " ++ t ++ insensitive_display b ++ rest) L)
      as (pl & [RL ML] & PL); [reflexivity|].
    destruct (ev_comparator cmp (t ++ insensitive_display b ++ rest) C) as (pc & [RC MC] & PC).
    destruct (ev_list S_scoped_value "," ", " sv_display (fun x p => parse_scoped_value f64_parse p = Ok x) (insensitive_display b ++ rest) follow comma_glue)
      with (l := vs) as (ST & ps & r & P & M & N); auto; [reflexivity|apply suffix_follow, F|apply suffix_comma, NC| |].
    { apply (Forall_impl _ (P := sv_ok)); [|exact V]. intros x Vx. split; [intros s; apply starts_scoped_value, Vx|].
      intros s Fs. destruct (ev_scoped_value x s Vx Fs) as (p & Mx & Px). exists p. split; [apply matched_loose, Mx|exact Px]. }
    rewrite <- Et in ST, M.
    destruct (ev_suffix b rest NS) as (qs & r2 & M2 & N2 & Eq).
    eexists. split.
    - split; [|exists r2; split; [refine (ev_rule_any false S_scoped_assertion _ r2 _ _); cbn [sub_atomic fst snd selector_rule PSeqs]|exact N2]].
      2:{ rewrite <- !app_assoc.
          refine (seq_loose _ _ _ [pl] _ _ _ r2 ML eq_refl _).
          replace (unblank (lit " " ++ comparator_display cmp ++ lit " " ++ t ++ insensitive_display b ++ rest))
            with (comparator_display cmp ++ " "%char :: t ++ insensitive_display b ++ rest) by (destruct cmp; reflexivity).
          refine (ev_seq _ _ _ _ _ [pc] _ _ r2 MC _). cbn [skip].
          change (unblank (" "%char :: t ++ insensitive_display b ++ rest)) with (unblank (t ++ insensitive_display b ++ rest)).
          rewrite ST. refine (seq_loose _ _ _ _ r (insensitive_display b ++ rest) _ r2 _ N M2).
          refine (ev_rule_any false S_scoped_values _ r ps _). exact M. }
      reflexivity.
    - unfold parse_scoped_assertion. cbn [seen fst snd selector_rule p_inner next rbind app].
      rewrite RL, PL. cbn [rbind next]. rewrite PC. cbn [rbind parse_values p_rule p_inner].
      rewrite (forall2_parse S_scoped_value (parse_scoped_value f64_parse) (fun r => match r with S_scoped_value => true | _ => false end) vs ps eq_refl P).
      cbn [rbind]. subst qs. destruct b; cbn [parse_values p_rule rbind fst snd]; rewrite ?app_nil_r; reflexivity.
  Qed.
  Lemma ev_assertions l rest : l <> [] -> Forall (assertion_shaped value_printable) l ->
    starts (join (lit " && ") (map (assertion_display f64_str) l) ++ lit "]" ++ rest) /\
    exists p r, p_rule p = S_scoped_assertions
      /\ ev false (call S_scoped_assertions) (join (lit " && ") (map (assertion_display f64_str) l) ++ lit "]" ++ rest) (Some ([p], r))
      /\ unblank r = lit "]" ++ rest
      /\ Forall2 (fun x p => p_rule p = S_scoped_assertion /\ parse_scoped_assertion f64_parse p = Ok x) l (p_inner p).
  Proof.
    intros NE V.
    destruct (ev_list S_scoped_assertion "&&" " && " (assertion_display f64_str) (fun x p => parse_scoped_assertion f64_parse p = Ok x)
      (lit "]" ++ rest) (fun s => follow s /\ no_comma s /\ no_suffix s) and_glue)
      with (l := l) as (ST & ps & r & P & M & N); auto.
    - intros s _. split; [reflexivity|]. split; [unfold no_comma; ev_compute|unfold no_suffix; ev_compute].
    - split; [reflexivity|]. split; [unfold no_comma; ev_compute|unfold no_suffix; ev_compute].
    - ev_compute.
    - apply (Forall_impl _ (P := assertion_shaped value_printable)); [|exact V]. intros x Vx. split.
      + intros s. unfold assertion_display. rewrite <- app_assoc. apply starts_scoped_value, Vx.
      + intros s (F & C & S). exact (ev_assertion x s Vx F C S).
    - split; [exact ST|]. exists (Pair S_scoped_assertions (taken (join (lit " && ") (map (assertion_display f64_str) l) ++ lit "]" ++ rest) r) ps), r.
      split; [reflexivity|]. split; [|split; [exact N|exact P]].
      refine (ev_rule_any false S_scoped_assertions _ r ps _). exact M.
  Qed.
  Lemma ev_scoped s rest : scoped_shaped value_printable s ->
    exists p, matched S_scoped_attr (scoped_display f64_str s) rest p /\ parse_scoped_attr f64_parse p = Ok s.
  Proof.
    destruct s as [k l]. intros (K & NE & V). cbn [sc_key sc_assertions] in *. unfold scoped_display. cbn [sc_key sc_assertions].
    destruct (ev_assertions l rest NE V) as (ST & pa & ra & RA & MA & NA & FA).
    assert (PA : map_result (fun q => match p_rule q with S_scoped_assertion => parse_scoped_assertion f64_parse q
                                      | _ => unexpected "parse_selector_scoped_attr" end) (p_inner pa) = Ok l).
    { apply map_result_all. clear -FA. induction FA as [|x p l ps [R E] FA IH]; constructor; auto. rewrite R. exact E. }
    remember (join (lit " && ") (map (assertion_display f64_str) l)) as t eqn:Et.
    destruct k as [k|].
    - destruct (ev_key k (lit ": " ++ t ++ lit "]" ++ rest) K) as (pk & (RK & rk & MK & NK) & PK); [reflexivity|unfold no_bar; ev_compute|].
      eexists. split.
      + split; [|refine (ev_rule false S_scoped_attr _ _ rest _); cbn [sub_atomic fst snd selector_rule PSeqs]].
        2:{ rewrite <- !app_assoc. apply seq_tok.
            replace (unblank (key_display f64_str k ++ lit ": " ++ t ++ lit "]" ++ rest))
              with (key_display f64_str k ++ lit ": " ++ t ++ lit "]" ++ rest).
            2:{ symmetry. unfold key_display. rewrite <- app_assoc. apply starts_short, K. }
            refine (seq_loose _ _ _ [pk] rk (lit ": " ++ t ++ lit "]" ++ rest) [pa] rest (ev_opt1 _ _ _ _ _ MK) NK _).
            change (unblank (lit ": " ++ t ++ lit "]" ++ rest)) with (lit ":" ++ " "%char :: t ++ lit "]" ++ rest).
            apply seq_tok. change (unblank (" "%char :: t ++ lit "]" ++ rest)) with (unblank (t ++ lit "]" ++ rest)). rewrite ST.
            refine (seq_loose _ _ _ [pa] ra (lit "]" ++ rest) [] rest MA NA _). exact (ev_str _ _ (lit "]") rest). }
        reflexivity.
      + unfold parse_scoped_attr. cbn [seen fst snd selector_rule p_inner next rbind app].
        rewrite RK, PK. cbn [rbind next]. rewrite RA, PA. cbn [rbind]. destruct l; [congruence|reflexivity].
    - eexists. split.
      + split; [|refine (ev_rule false S_scoped_attr _ _ rest _); cbn [sub_atomic fst snd selector_rule PSeqs]].
        2:{ rewrite <- !app_assoc. apply seq_tok. cbn [app].
            change (unblank (lit ": " ++ t ++ lit "]" ++ rest)) with (lit ":" ++ " "%char :: t ++ lit "]" ++ rest).
            refine (ev_seq _ _ _ _ _ [] (lit ":" ++ " "%char :: t ++ lit "]" ++ rest) [pa] rest _ _); [apply ev_opt2; ev_compute|].
            cbn [skip]. change (unblank (lit ":" ++ ?s)) with (lit ":" ++ s) || idtac.
            refine (seq_tok ":" _ (" "%char :: t ++ lit "]" ++ rest) _ _ _).
            change (unblank (" "%char :: t ++ lit "]" ++ rest)) with (unblank (t ++ lit "]" ++ rest)). rewrite ST.
            refine (seq_loose _ _ _ [pa] ra (lit "]" ++ rest) [] rest MA NA _). exact (ev_str _ _ (lit "]") rest). }
        reflexivity.
      + unfold parse_scoped_attr. cbn [seen fst snd selector_rule p_inner next rbind app].
        rewrite RA. rewrite PA. cbn [rbind]. destruct l; [congruence|reflexivity].
  Qed.

  (** ** Neighbors *)
  (** What may follow an expression. *)
  Definition efollow (s : str) : Prop :=
    s = [] \/ exists t, s = " "%char :: t \/ s = ","%char :: t \/ s = ")"%char :: t.
  Lemma efollow_follow s : efollow s -> follow s.
  Proof. intros [-> | [t [-> | [-> | ->]]]]; reflexivity. Qed.
  Ltac efollow_cases F := destruct F as [-> | [? [-> | [-> | ->]]]].
  Lemma ev_directed q (o c : string) l rest : selector_rule q = (Normal, PSeqs [tok o; call S_directed_relationships; tok c]) ->
    (forall s, starts (lit c ++ s)) -> (forall s, follow (lit c ++ s)) -> (forall s, ev false (tok ",") (lit c ++ s) None) ->
    l <> [] -> Forall short_identifier l ->
    exists p, matched q (lit o ++ join (lit ", ") l ++ lit c) rest p /\ parse_directed p = Ok l.
  Proof.
    intros E C1 C2 C3 NE V.
    destruct (ev_list S_identifier "," ", " (fun x : str => x) (fun x p => p_text p = x) (lit c ++ rest) follow comma_glue)
      with (l := l) as (ST & ps & r & P & M & N); auto; [reflexivity|rewrite (C1 rest); apply C3| |].
    { apply (Forall_impl _ (P := short_identifier)); [|exact V]. intros x Vx. split; [intros s; apply starts_short, Vx|].
      intros s Fs. exists (Pair S_identifier x []). split; [|reflexivity]. apply matched_loose. split; [reflexivity|].
      exact (ev_identifier false x s Vx (follow_stop _ Fs)). }
    rewrite map_id in ST, M. eexists. split.
    - split; [|assert (Q := ev_rule false q (lit o ++ join (lit ", ") l ++ lit c)); rewrite E in Q; refine (Q _ rest _); cbn [sub_atomic fst snd PSeqs]].
      2:{ rewrite <- !app_assoc. apply seq_tok. rewrite ST.
          refine (seq_loose _ _ _ _ r (lit c ++ rest) [] rest _ N _); [|rewrite (C1 rest); exact (ev_str _ _ (lit c) rest)].
          refine (ev_rule_any false S_directed_relationships _ r ps _). exact M. }
      reflexivity.
    - unfold parse_directed. cbn [seen fst snd selector_rule p_inner next rbind app p_rule].
      apply map_result_all. clear -P V. revert V. induction P as [|x p l ps [R T] P IH]; intros V; [constructor|].
      inversion V; subst. constructor; [|apply IH; assumption]. rewrite R. apply short_from_str. assumption.
  Qed.

  (** ** Expressions *)
  Notation parse_expression := (parse_expression f64_parse).
  Notation parse_a_selector := (parse_a_selector f64_parse).
  Notation expr_display := (expr_display f64_str).
  Notation selector_display := (selector_display f64_str).
  Lemma expr_ind' (P : expr -> Prop) :
    (forall t, P (XShapeType t)) -> (forall a, P (XAttribute a)) -> (forall s, P (XScoped s)) -> (forall n, P (XNeighbor n)) ->
    (forall n args, Forall (Forall P) args -> P (XFunction n args)) ->
    (forall n sel, Forall P sel -> P (XDefine n sel)) -> (forall n, P (XReference n)) -> forall x, P x.
  Proof.
    intros H1 H2 H3 H4 H5 H6 H7. fix IH 1. intros [t|a|s|n|n args|n sel|n]; [apply H1|apply H2|apply H3|apply H4| | |apply H7].
    - apply H5. induction args as [|sel args IHa]; constructor; [|exact IHa]. clear IHa.
      induction sel as [|x sel IHs]; constructor; [apply IH|exact IHs].
    - apply H6. induction sel as [|x sel IHs]; constructor; [apply IH|exact IHs].
  Qed.
  (** The local loops of [parse_expression]. *)
  Lemma parse_function_eq r0 t0 t n ra ta args more more2 :
    p_rule n = S_identifier -> ra = S_function_args ->
    parse_expression (Pair r0 t0 (Pair S_function t (n :: Pair ra ta args :: more) :: more2))
    = (name <- ident_from_str (p_text n) ;;
       l <- map_result (fun q => match p_rule q with S_selector => parse_a_selector q | _ => unexpected "parse_selector_function" end) args ;;
       match l with [] => Panic | _ => Ok (XFunction name l) end).
  Proof.
    intros E ->. cbn [SelectorParse.parse_expression]. rewrite E. destruct (ident_from_str (p_text n)); cbn [rbind]; [|reflexivity..].
    f_equal. induction args as [|q args IH]; [reflexivity|]. cbn [map_result]. rewrite <- IH. destruct (p_rule q) eqn:R; try reflexivity.
    destruct q as [rq tq inner]. cbn [p_rule] in R. subst rq. unfold SelectorParse.parse_a_selector. cbn [p_rule p_inner].
    f_equal. clear IH. induction inner as [|e inner IH]; [reflexivity|]. cbn [map_result]. rewrite <- IH.
    destruct (p_rule e); reflexivity.
  Qed.
  Lemma parse_define_eq r0 t0 t n q more more2 :
    p_rule n = S_identifier -> p_rule q = S_selector ->
    parse_expression (Pair r0 t0 (Pair S_variable_set t (n :: q :: more) :: more2))
    = (name <- ident_from_str (p_text n) ;; s <- parse_a_selector q ;; Ok (XDefine name s)).
  Proof.
    intros E R. cbn [SelectorParse.parse_expression]. rewrite E, R. destruct (ident_from_str (p_text n)); cbn [rbind]; [|reflexivity..].
    destruct q as [rq tq inner]. cbn [p_rule] in R. subst rq. unfold SelectorParse.parse_a_selector. cbn [p_rule p_inner].
    f_equal. induction inner as [|e inner IH]; [reflexivity|]. cbn [map_result]. rewrite <- IH.
    destruct (p_rule e); reflexivity.
  Qed.

  Definition expr_parses (x : expr) : Prop :=
    (forall s, starts (expr_display x ++ s)) /\
    forall rest, efollow rest ->
      exists p, matched S_selector_expression (expr_display x) rest p /\ parse_expression p = Ok x.
  Lemma one_expression q t rest p : ev false (snd (selector_rule S_selector_expression)) (t ++ rest) (Some ([p], rest)) ->
    p_rule p = q ->
    matched S_selector_expression t rest (Pair S_selector_expression t [p]).
  Proof. intros M R. split; [reflexivity|]. exact (ev_rule false S_selector_expression t [p] rest M). Qed.
  Ltac choose M := cbn [snd selector_rule PAlts]; repeat first [exact M | apply ev_alt1; exact M | apply ev_alt2; [ev_compute|]].

  (** A selector from its expressions. *)
  Definition sfollow (s : str) : Prop := s = [] \/ exists t, s = ","%char :: t \/ s = ")"%char :: t.
  Lemma sfollow_efollow s : sfollow s -> efollow s.
  Proof. intros [-> | [t [-> | ->]]]; unfold efollow; eauto. Qed.
  Lemma ev_selector sel : sel <> [] -> Forall expr_parses sel ->
    (forall s, starts (selector_display sel ++ s)) /\
    forall rest, sfollow rest -> exists p, loose S_selector (selector_display sel) rest p /\ parse_a_selector p = Ok sel.
  Proof.
    intros NE A.
    assert (G : forall l, Forall expr_parses l -> forall rest, sfollow rest -> efollow (concat (map (fun x => " "%char :: expr_display x) l) ++ rest)
      /\ exists ps, Forall2 (fun x p => p_rule p = S_selector_expression /\ parse_expression p = Ok x) l ps
        /\ ev false (PMore (call S_selector_expression)) (concat (map (fun x => " "%char :: expr_display x) l) ++ rest) (Some (ps, rest))).
    { induction 1 as [|x l [Sx Mx] L IH]; intros rest F; cbn [map concat app].
      - split; [apply sfollow_efollow, F|]. exists []. split; [constructor|]. apply ev_more_nil.
        destruct F as [-> | [t [-> | ->]]]; ev_compute.
      - destruct (IH rest F) as (EF & ps & P & M). split; [right; eexists; left; reflexivity|].
        destruct (Mx _ EF) as (p & [R1 M1] & P1). exists (p :: ps). split; [constructor; auto|].
        rewrite <- app_assoc. refine (ev_more_cons _ _ _ _ [p] _ ps rest _ M). cbn [skip].
        change (unblank (" "%char :: ?s)) with (unblank s) || idtac.
        rewrite Sx. exact M1. }
    destruct sel as [|x l]; [congruence|]. inversion A as [|x0 l0 [Sx Mx] A']; subst.
    assert (J : forall l x, selector_display (x :: l) = expr_display x ++ concat (map (fun x => " "%char :: expr_display x) l)).
    { clear. induction l as [|y l IH]; intros x; [symmetry; apply app_nil_r|].
      change (selector_display (x :: y :: l)) with (expr_display x ++ lit " " ++ selector_display (y :: l)). rewrite IH. reflexivity. }
    rewrite J. split; [intros s; rewrite <- app_assoc; apply Sx|]. intros rest F.
    destruct (G l A' rest F) as (EF & ps & P & M). destruct (Mx _ EF) as (p & [R1 M1] & P1).
    destruct (star_of_more _ _ _ _ M) as (r2 & ST & N2). eexists. split.
    - split; [|exists r2; split; [|exact N2]].
      2:{ refine (ev_rule_any false S_selector _ r2 _ _). cbn [sub_atomic fst snd selector_rule]. rewrite <- app_assoc.
          exact (ev_seq _ _ _ _ _ [p] _ ps r2 M1 ST). }
      reflexivity.
    - unfold SelectorParse.parse_a_selector. cbn [seen fst snd selector_rule p_rule p_inner app].
      apply map_result_all. constructor; [rewrite R1; exact P1|]. clear -P.
      induction P as [|y q l ps [R E] P IH]; constructor; auto. rewrite R. exact E.
  Qed.

  Lemma ev_expr x : expr_shaped value_printable x -> expr_parses x.
  Proof.
    induction x as [t|a|s|n|n args IH|n sel IH|n] using expr_ind'; intros OK; inversion OK; subst; clear OK.
    - split; [destruct t; reflexivity|]. intros rest F.
      assert (M : exists p, matched S_shape_types (shape_type_display t) rest p /\ parse_shape_types p = Ok t).
      { destruct t; try (
          match goal with |- exists p, matched _ (shape_type_display ?ty) _ _ /\ _ =>
            let n := eval cbv [shape_type_display] in (shape_type_display ty) in
            exists (Pair S_shape_types (shape_type_display ty) [Pair S_identifier (shape_type_display ty) []]);
            split; [split; [reflexivity|]|reflexivity];
            refine (ev_rule false S_shape_types (shape_type_display ty) _ rest _); cbn [sub_atomic fst snd selector_rule];
            apply ev_alt2; [ev_compute|]; apply (ev_identifier false (shape_type_display ty) rest); [|apply follow_stop, efollow_follow, F];
            eexists; eexists; split; [left; reflexivity|]; split; [reflexivity|]; repeat constructor
          end).
        exists (Pair S_shape_types (lit "*") []). split; [split; [reflexivity|]|reflexivity].
        refine (ev_rule false S_shape_types (lit "*") [] rest _). cbn [sub_atomic fst snd selector_rule]. apply ev_alt1. ev_compute. }
      destruct M as (p & [R M] & P). eexists. split; [apply (one_expression S_shape_types)|].
      + choose M.
      + exact R.
      + destruct p as [r tx i]. cbn in R. subst r. cbn [SelectorParse.parse_expression]. rewrite P. reflexivity.
    - split; [reflexivity|]. intros rest F. destruct (ev_attribute a rest) as (p & [R M] & P); [assumption|].
      eexists. split; [apply (one_expression S_attr)|].
      + choose M.
      + exact R.
      + destruct p as [r tx i]. cbn in R. subst r. cbn [SelectorParse.parse_expression]. rewrite P. reflexivity.
    - split; [reflexivity|]. intros rest F. destruct (ev_scoped s rest) as (p & [R M] & P); [assumption|].
      eexists. split; [apply (one_expression S_scoped_attr)|].
      + choose M.
      + exact R.
      + destruct p as [r tx i]. cbn in R. subst r. cbn [SelectorParse.parse_expression]. rewrite P. reflexivity.
    - split; [destruct n; reflexivity|]. intros rest F. destruct n as [| |l|l|]; cbn [neighbor_printable] in *.
      + destruct (tok_rule S_forward_undirected (lit ">") rest eq_refl) as [R M]. eexists. split; [apply (one_expression S_forward_undirected)|].
        * choose M.
        * exact R.
        * reflexivity.
      + destruct (tok_rule S_reverse_undirected (lit "<") rest eq_refl) as [R M]. eexists. split; [apply (one_expression S_reverse_undirected)|].
        * efollow_cases F; choose M.
        * exact R.
        * reflexivity.
      + destruct (ev_directed S_forward_directed "-[" "]->" l rest eq_refl) as (p & [R M] & P); try tauto; try reflexivity; [intros; ev_compute|].
        eexists. split; [apply (one_expression S_forward_directed)|].
        * choose M.
        * exact R.
        * destruct p as [r tx i]. cbn in R. subst r. cbn [SelectorParse.parse_expression]. rewrite P. reflexivity.
      + destruct (ev_directed S_reverse_directed "<-[" "]-" l rest eq_refl) as (p & [R M] & P); try tauto; try reflexivity; [intros; ev_compute|].
        eexists. split; [apply (one_expression S_reverse_directed)|].
        * choose M.
        * exact R.
        * destruct p as [r tx i]. cbn in R. subst r. cbn [SelectorParse.parse_expression]. rewrite P. reflexivity.
      + destruct (tok_rule S_forward_recursive (lit "~>") rest eq_refl) as [R M]. eexists. split; [apply (one_expression S_forward_recursive)|].
        * choose M.
        * exact R.
        * reflexivity.
    - split; [reflexivity|]. intros rest F. rename H1 into Sn, H2 into NE, H3 into V.
      change (expr_display (XFunction n args)) with (lit ":" ++ n ++ lit "(" ++ join (lit ", ") (map selector_display args) ++ lit ")").
      destruct (ev_list S_selector "," ", " selector_display (fun x p => parse_a_selector p = Ok x) (lit ")" ++ rest) sfollow comma_glue)
        with (l := args) as (ST & ps & r & P & M & N); auto.
      { intros s _. right. eexists. left. reflexivity. }
      { right. eexists. right. reflexivity. }
      { ev_compute. }
      { clear -IH V. induction V as [|sel args [NE V] Vs IHa]; [constructor|]. inversion IH as [|s0 a0 I1 I2]; subst.
        constructor; [|exact (IHa I2)]. apply ev_selector; [exact NE|].
        clear -I1 V. induction V as [|x sel Vx V IHs]; [constructor|]. inversion I1; subst. constructor; auto. }
      set (t := join (lit ", ") (map selector_display args)) in *.
      set (pf := Pair S_function (lit ":" ++ n ++ lit "(" ++ t ++ lit ")")
                   [Pair S_identifier n []; Pair S_function_args (taken (t ++ lit ")" ++ rest) r) ps]).
      assert (MF : ev false (call S_function) ((lit ":" ++ n ++ lit "(" ++ t ++ lit ")") ++ rest) (Some ([pf], rest))).
      { refine (ev_rule false S_function _ [Pair S_identifier n []; Pair S_function_args (taken (t ++ lit ")" ++ rest) r) ps] rest _). cbn [sub_atomic fst snd selector_rule PSeqs].
        rewrite <- !app_assoc. apply seq_tok. rewrite (starts_short n _ Sn).
        refine (ev_seq _ _ _ _ _ [Pair S_identifier n []] (lit "(" ++ t ++ lit ")" ++ rest) _ rest (ev_identifier false n _ Sn _) _); [apply follow_stop; reflexivity|].
        cbn [skip]. change (unblank (lit "(" ++ t ++ lit ")" ++ rest)) with (lit "(" ++ t ++ lit ")" ++ rest). apply seq_tok. rewrite ST.
        refine (seq_loose _ _ _ [Pair S_function_args (taken (t ++ lit ")" ++ rest) r) ps] r (lit ")" ++ rest) [] rest _ N _); [|exact (ev_str _ _ (lit ")") rest)].
        refine (ev_rule_any false S_function_args _ r ps _). exact M. }
      exists (Pair S_selector_expression (lit ":" ++ n ++ lit "(" ++ t ++ lit ")") [pf]). split; [apply (one_expression S_function)|].
      + choose MF.
      + reflexivity.
      + unfold pf. rewrite parse_function_eq by reflexivity. cbn [p_text]. rewrite (short_from_str _ Sn). cbn [rbind].
        rewrite (map_result_all _ args ps); [cbn [rbind]; destruct args; [congruence|reflexivity]|].
        clear -P. induction P as [|x p l ps [R E] P IH]; constructor; auto. rewrite R. exact E.
    - split; [reflexivity|]. intros rest F. rename H1 into Sn, H2 into NE, H3 into V.
      change (expr_display (XDefine n sel)) with (lit "$" ++ n ++ lit "(" ++ selector_display sel ++ lit ")").
      assert (PS : Forall expr_parses sel).
      { clear -IH V. induction V as [|x sel Vx V IHs]; [constructor|]. inversion IH; subst. constructor; auto. }
      destruct (ev_selector sel NE PS) as [ST MM].
      destruct (MM (lit ")" ++ rest)) as (p & (R & r & M & N) & P); [right; eexists; right; reflexivity|].
      set (t := selector_display sel) in *.
      set (pf := Pair S_variable_set (lit "$" ++ n ++ lit "(" ++ t ++ lit ")") [Pair S_identifier n []; p]).
      assert (MF : ev false (call S_variable_set) ((lit "$" ++ n ++ lit "(" ++ t ++ lit ")") ++ rest) (Some ([pf], rest))).
      { refine (ev_rule false S_variable_set _ [Pair S_identifier n []; p] rest _). cbn [sub_atomic fst snd selector_rule PSeqs].
        rewrite <- !app_assoc. apply seq_tok. rewrite (starts_short n _ Sn).
        refine (ev_seq _ _ _ _ _ [Pair S_identifier n []] (lit "(" ++ t ++ lit ")" ++ rest) _ rest (ev_identifier false n _ Sn _) _); [apply follow_stop; reflexivity|].
        cbn [skip]. change (unblank (lit "(" ++ t ++ lit ")" ++ rest)) with (lit "(" ++ t ++ lit ")" ++ rest). apply seq_tok. rewrite ST.
        refine (seq_loose _ _ _ _ r (lit ")" ++ rest) [] rest M N _). exact (ev_str _ _ (lit ")") rest). }
      exists (Pair S_selector_expression (lit "$" ++ n ++ lit "(" ++ t ++ lit ")") [pf]). split; [apply (one_expression S_variable_set)|].
      + choose MF.
      + reflexivity.
      + unfold pf. rewrite parse_define_eq; [|reflexivity|exact R]. cbn [p_text]. rewrite (short_from_str _ Sn). cbn [rbind].
        rewrite P. reflexivity.
    - split; [reflexivity|]. intros rest F. rename H0 into Sn.
      set (t := lit "${" ++ n ++ lit "}").
      assert (MF : ev false (call S_variable_get) (t ++ rest) (Some ([Pair S_variable_get t [Pair S_identifier n []]], rest))).
      { refine (ev_rule false S_variable_get t [Pair S_identifier n []] rest _). cbn [sub_atomic fst snd selector_rule PSeqs].
        unfold t. rewrite <- !app_assoc. apply seq_tok. rewrite (starts_short n _ Sn).
        refine (ev_seq _ _ _ _ _ [Pair S_identifier n []] (lit "}" ++ rest) [] rest (ev_identifier false n _ Sn _) _); [apply follow_stop; reflexivity|].
        exact (ev_str _ _ (lit "}") rest). }
      exists (Pair S_selector_expression t [Pair S_variable_get t [Pair S_identifier n []]]). split; [apply (one_expression S_variable_get)|].
      + choose MF.
      + reflexivity.
      + cbn [SelectorParse.parse_expression]. unfold parse_variable_get. cbn [p_inner next rbind p_rule p_text]. rewrite (short_from_str _ Sn). reflexivity.
  Qed.

  (** ** The whole text *)
  Lemma parse_total s : exists r, parse_rule selector_grammar (selector_fuel s) S_input s = Some r.
  Proof.
    unfold parse_rule. destruct (selector_total false S_input s ltac:(cbn; lia) (selector_fuel s) (le_n _)) as [r E].
    rewrite E. destruct r as [[ps r]|]; eauto.
  Qed.
  Lemma parse_rule_of_ev s ps r : ev false (call S_input) s (Some (ps, r)) ->
    parse_rule selector_grammar (selector_fuel s) S_input s = Some (Some ps).
  Proof.
    intros [f F]. destruct (selector_total false S_input s ltac:(cbn; lia) (selector_fuel s) (le_n _)) as [x E].
    assert (E1 := run_mono _ _ _ _ _ _ E (f + selector_fuel s) ltac:(lia)).
    assert (E2 := run_mono _ _ _ _ _ _ F (f + selector_fuel s) ltac:(lia)).
    unfold call in E2. rewrite E1 in E2. injection E2 as ->. unfold parse_rule. rewrite E. reflexivity.
  Qed.
  Lemma round_trip sel : printable f64_str f64_parse sel -> parse_selector f64_parse (selector_display sel) = Ok sel.
  Proof.
    intros [NE A].
    assert (A' : Forall expr_parses sel) by (apply (Forall_impl _ ev_expr), A).
    destruct (ev_selector sel NE A') as [ST MM].
    destruct (MM []) as (p & (R & r & M & N) & P); [left; reflexivity|]. rewrite app_nil_r in M.
    assert (MI : ev false (call S_input) (selector_display sel) (Some ([Pair S_input (selector_display sel) [p; Pair S_EOI [] []]], []))).
    { assert (Q := ev_rule false S_input (selector_display sel) [p; Pair S_EOI [] []] []). rewrite app_nil_r in Q. apply Q. clear Q.
      cbn [sub_atomic fst snd selector_rule PSeqs].
      refine (ev_seq _ _ _ _ _ [] (selector_display sel) [p; Pair S_EOI [] []] [] (ev_str _ _ [] _) _). cbn [skip].
      assert (S0 := ST []). rewrite app_nil_r in S0. rewrite S0.
      refine (seq_loose _ _ _ [p] r [] [Pair S_EOI [] []] [] M N _). ev_compute. }
    unfold parse_selector. rewrite (parse_rule_of_ev _ _ _ MI). cbn [next rbind p_rule p_inner]. rewrite R. exact P.
  Qed.
End Facts.
