(** Whatever the grammar of the IDL accepts is in the language of the specification. *)
From Verif.Model Require Import Values SmithyGrammar.
From Verif.Spec Require Import IdlLanguageSpec.
From Verif.Proofs Require Import BaseFacts PegFacts.
From Verif.Proofs Require SelectorSound SelectorGrammarFacts.

Notation y := (yields smithy_grammar).
(** What [e] takes off a text of at most [n] characters is in [L]. *)
Definition reads (n : nat) (at_ : bool) (e : pexp irule) (L : lang) : Prop :=
  forall s ps s', length s <= n -> y at_ e s ps s' -> exists t, s = t ++ s' /\ L t.

Lemma no_skip at_ s : skip smithy_grammar at_ s = s.
Proof. destruct at_; [reflexivity|]. destruct s; reflexivity. Qed.
Lemma reads_weaken n at_ e (L L' : lang) : reads n at_ e L -> (forall t, L t -> L' t) -> reads n at_ e L'.
Proof. intros H I s ps s' N Y. destruct (H s ps s' N Y) as (t & E & K). eauto. Qed.
Lemma reads_less n m at_ e L : m <= n -> reads n at_ e L -> reads m at_ e L.
Proof. intros H I s ps s' N Y. apply (I s ps s'); [lia|exact Y]. Qed.
Lemma reads_str n at_ x : reads n at_ (PStr x) (fun t => t = x).
Proof. intros s ps s' _ Y. inversion Y; subst. eauto. Qed.
Lemma reads_call n at_ q L : reads n (sub_atomic (fst (smithy_rule q)) at_) (snd (smithy_rule q)) L -> reads n at_ (PCall q) L.
Proof. intros H s ps s' N Y. inversion Y; subst. eapply H; eassumption. Qed.
Lemma reads_seq n at_ a b A B : reads n at_ a A -> reads n at_ b B -> reads n at_ (PSeq a b) (fun t => exists u v, A u /\ B v /\ t = u ++ v).
Proof.
  intros HA HB s ps s' N Y. inversion Y; subst. rewrite no_skip in *.
  match goal with H : y at_ a _ _ ?z |- _ => destruct (HA _ _ _ N H) as (u & E & U) end. subst s.
  rewrite app_length in N. match goal with H : y at_ b ?z _ _ |- _ => assert (M : length z <= n) by lia; destruct (HB _ _ _ M H) as (v & E & V) end.
  subst. exists (u ++ v). rewrite <- app_assoc. split; [reflexivity|eauto].
Qed.
(** After a token there is less to read. *)
Lemma reads_token n at_ x b B : x <> [] -> (forall m, m < n -> reads m at_ b B) ->
  reads n at_ (PSeq (PStr x) b) (fun t => exists v, B v /\ t = x ++ v).
Proof.
  intros X HB s ps s' N Y. inversion Y; subst. rewrite no_skip in *.
  match goal with H : y at_ (PStr x) _ _ ?z |- _ => inversion H; subst end.
  rewrite app_length in N. destruct x as [|c x]; [congruence|]. cbn in N.
  match goal with H : y at_ b ?z _ _ |- _ => assert (M : length z < n) by lia; destruct (HB _ M _ _ _ (le_n _) H) as (v & E & V) end.
  subst. exists ((c :: x) ++ v). rewrite <- app_assoc. split; [reflexivity|eauto].
Qed.
Lemma reads_seqs n at_ es Ls : Forall2 (reads n at_) es Ls -> reads n at_ (PSeqs es) (parts Ls).
Proof.
  intros H. induction H as [|e L es Ls H1 H2 IH]; [apply reads_str|].
  destruct es as [|e' es].
  - inversion H2; subst. eapply reads_weaken; [exact H1|]. intros t T. exists t, []. rewrite app_nil_r. cbn. auto.
  - change (PSeqs (e :: e' :: es)) with (PSeq e (PSeqs (e' :: es))). eapply reads_weaken; [apply reads_seq; eassumption|]. intros t T; exact T.
Qed.
Lemma reads_alt n at_ a b (L : lang) : reads n at_ a L -> reads n at_ b L -> reads n at_ (PAlt a b) L.
Proof. intros HA HB s ps s' N Y. inversion Y; subst; [eapply HA|eapply HB]; eassumption. Qed.
Lemma reads_alts n at_ es (L : lang) : es <> [] -> Forall (fun e => reads n at_ e L) es -> reads n at_ (PAlts es) L.
Proof.
  intros NE H. induction H as [|e es H1 H2 IH]; [congruence|]. destruct es as [|e' es]; [exact H1|].
  change (PAlts (e :: e' :: es)) with (PAlt e (PAlts (e' :: es))). apply reads_alt; [exact H1|]. apply IH. discriminate.
Qed.
Lemma reads_opt n at_ a L : reads n at_ a L -> reads n at_ (POpt a) (optional L).
Proof. intros HA s ps s' N Y. inversion Y; subst; [|exists []; split; [reflexivity|left; reflexivity]]. match goal with H : y at_ a _ _ _ |- _ => destruct (HA _ _ _ N H) as (t & E & T) end. exists t. split; [exact E|right; exact T]. Qed.
Lemma reads_more n at_ a L : reads n at_ a L -> reads n at_ (PMore a) (many L).
Proof.
  intros HA s ps s' N Y. revert N. revert s ps s' Y. apply (yields_more_ind smithy_grammar at_ a (fun s _ s' => length s <= n -> exists t, s = t ++ s' /\ many L t)).
  - intros s K N. exists []. split; [reflexivity|constructor].
  - intros s p1 s1 p2 s2 Y1 Y2 IH N. rewrite no_skip in Y1. destruct (HA _ _ _ N Y1) as (t & E & T). subst s. rewrite app_length in N.
    destruct IH as (u & E & U); [lia|]. subst s1. exists (t ++ u). rewrite <- app_assoc. split; [reflexivity|constructor; assumption].
Qed.
Lemma reads_star n at_ a L : reads n at_ a L -> reads n at_ (PStar a) (many L).
Proof.
  intros HA s ps s' N Y. inversion Y; subst; [|exists []; split; [reflexivity|constructor]].
  match goal with H : y at_ a _ _ ?z |- _ => destruct (HA _ _ _ N H) as (t & E & T) end. subst s. rewrite app_length in N.
  match goal with H : y at_ (PMore a) ?z _ _ |- _ => assert (M : length z <= n) by lia; destruct (reads_more n at_ a L HA _ _ _ M H) as (u & E & U) end.
  subst. exists (t ++ u). rewrite <- app_assoc. split; [reflexivity|constructor; assumption].
Qed.
Lemma reads_end n at_ : reads n at_ PEnd (fun t => t = []).
Proof. intros s ps s' N Y. inversion Y; subst. exists []. auto. Qed.
(** A character, wherever it stands. *)
Definition char_text (lo hi : N) : lang := fun t => exists c, (lo <= c <= hi)%N /\ forall z, decode1 (t ++ z) = Some (c, z).
Lemma reads_range n at_ lo hi : reads n at_ (PRange lo hi) (char_text lo hi).
Proof.
  intros s ps s' N Y. inversion Y; subst. match goal with D : decode1 _ = _ |- _ => apply decode1_local in D as (x & E & D) end.
  exists x. split; [exact E|]. eexists. eauto.
Qed.
Lemma many_weaken (L L' : lang) t : (forall t, L t -> L' t) -> many L t -> many L' t.
Proof. intros I M. induction M; constructor; auto. Qed.
(** Texts that can be put in front of those of [B]. *)
Definition before (B : lang) : lang := fun t => forall z, B z -> B (t ++ z).
Lemma many_before (B : lang) t : B [] -> many (before B) t -> B t.
Proof. intros H M. induction M; [exact H|]. auto. Qed.
Lemma before_app (B : lang) t u : before B t -> before B u -> before B (t ++ u).
Proof. intros T U z Z. rewrite <- app_assoc. apply T, U, Z. Qed.
Lemma reads_many (B : lang) n at_ a : B [] -> reads n at_ a (before B) -> reads n at_ (PStar a) B.
Proof. intros H K. eapply reads_weaken; [apply reads_star, K|]. intros t. apply many_before, H. Qed.

Lemma reads_ascii n at_ lo hi : (hi < 128)%N -> reads n at_ (PRange lo hi) (fun t => exists c, t = [c] /\ in_range lo hi c = true).
Proof.
  intros H s ps s' N Y. inversion Y; subst. match goal with D : decode1 _ = _ |- _ => apply SelectorSound.decode1_ascii in D as (a & -> & A); [|lia] end.
  exists [a]. split; [reflexivity|]. exists a. split; [reflexivity|]. unfold in_range. rewrite A. apply andb_true_iff. split; apply N.leb_le; lia.
Qed.
Ltac rcall := apply reads_call; cbn [fst snd smithy_rule sub_atomic].
Ltac done_ltb := reflexivity.

(** ** Tokens *)
Lemma reads_alpha n at_ : reads n at_ ASCII_ALPHA (fun t => exists c, t = [c] /\ is_alpha c = true).
Proof.
  apply reads_alt; (eapply reads_weaken; [apply reads_ascii; reflexivity|]); intros t (c & -> & C); exists c; split; try reflexivity;
    unfold is_alpha, is_upper, is_lower; rewrite C, ?orb_true_r; reflexivity.
Qed.
Lemma reads_digit n at_ : reads n at_ ASCII_DIGIT digit.
Proof. eapply reads_weaken; [apply reads_ascii; reflexivity|]. intros t (c & -> & C). exists c. auto. Qed.
Definition word_text : lang := Forall (fun x => is_alpha x = true \/ is_digit x = true \/ x = "_"%char).
Lemma reads_words n at_ : reads n at_ (PStar word_char) word_text.
Proof.
  apply reads_many; [constructor|]. apply reads_alts; [discriminate|]. repeat (apply Forall_cons; [|]); [| | |constructor].
  - eapply reads_weaken; [apply reads_alpha|]. intros t (c & -> & C) z Z. constructor; auto.
  - eapply reads_weaken; [apply reads_digit|]. intros t (c & C & ->) z Z. constructor; auto.
  - eapply reads_weaken; [apply reads_str|]. intros t -> z Z. constructor; auto.
Qed.
Lemma reads_identifier n at_ : reads n at_ (icall I_identifier) short_identifier.
Proof.
  rcall. apply reads_alt.
  - eapply reads_weaken; [apply reads_seq; [apply reads_alpha|apply reads_words]|]. intros t (u & v & (c & -> & C) & V & ->). exists c, v. auto.
  - eapply reads_weaken; [apply reads_seq; [apply reads_str|apply reads_seq; [apply reads_alpha|apply reads_words]]|].
    intros t (u & v & -> & (u' & v' & (c & -> & C) & V & ->) & ->). exists c, v'. auto.
Qed.
Lemma reads_namespace n at_ : reads n at_ (icall I_namespace) dotted_name.
Proof.
  rcall. eapply reads_weaken; [apply reads_seq; [apply reads_identifier|]|].
  - apply (reads_many (fun t => exists ids, Forall short_identifier ids /\ t = SelectorGrammarFacts.dotted ids)); [exists []; split; [constructor|reflexivity]|].
    eapply reads_weaken; [apply reads_seq; [apply reads_str|apply reads_identifier]|].
    intros t (u & v & -> & V & ->) z (ids & F & ->). exists (v :: ids). split; [constructor; assumption|].
    unfold SelectorGrammarFacts.dotted. cbn [map concat]. rewrite <- !app_assoc. reflexivity.
  - intros t (u & v & U & (ids & F & ->) & ->). exists (u :: ids). split; [discriminate|]. split; [constructor; assumption|].
    rewrite SelectorGrammarFacts.join_dotted. reflexivity.
Qed.
Lemma reads_absolute n at_ : reads n at_ (icall I_absolute_root_shape_id) absolute_id.
Proof. rcall. apply reads_seqs. repeat constructor; [apply reads_namespace|apply reads_str|apply reads_identifier]. Qed.
Lemma reads_shape_id n at_ : reads n at_ (icall I_shape_id) shape_ref.
Proof.
  rcall. apply (reads_seqs n true [icall I_root_shape_id; POpt (icall I_shape_id_member)]). repeat constructor.
  - rcall. apply reads_alt; (eapply reads_weaken; [first [apply reads_absolute|apply reads_identifier]|]); intros t T; [left|right]; exact T.
  - apply reads_opt. rcall. apply (reads_seqs n true [itok "$"; icall I_identifier]). repeat constructor; [apply reads_str|apply reads_identifier].
Qed.
Lemma reads_newline n at_ : reads n at_ NEWLINE newline_text.
Proof.
  apply reads_alts; [discriminate|]. repeat (apply Forall_cons; [|]); [| | |constructor]; (eapply reads_weaken; [apply reads_str|]); intros t ->; cbn; auto.
Qed.
Lemma char_comment lo hi t z : char_text lo hi t -> (lo = 9 /\ hi = 9 \/ lo = 32 /\ hi = 69631)%N -> comment_text z -> comment_text (t ++ z).
Proof. intros (c & B & D) H Z. eapply comment_cons; [apply D| |exact Z]. lia. Qed.
Lemma reads_comment n at_ : reads n at_ (PStar comment_char) comment_text.
Proof.
  apply reads_many; [constructor|]. apply reads_alt.
  - eapply reads_weaken; [apply reads_str|]. intros t -> z Z. eapply comment_cons; [reflexivity| |exact Z]. left. reflexivity.
  - eapply reads_weaken; [apply reads_range|]. intros t T z Z. eapply char_comment; eauto.
Qed.
Lemma layout_app u v : layout u -> layout v -> layout (u ++ v).
Proof.
  intros U V. induction U as [|c w C W IH|b e w B HD E W IH]; [exact V|constructor; assumption|].
  cbn [app]. rewrite <- app_assoc. cbn [app]. constructor; assumption.
Qed.
Lemma newline_layout t : newline_text t -> layout t.
Proof. intros [<-|[<-|[<-|[]]]]; repeat (apply layout_char; [reflexivity|]); constructor. Qed.
Lemma reads_ws n at_ : reads n at_ iws layout.
Proof.
  rcall. apply reads_many; [constructor|]. apply reads_alts; [discriminate|]. repeat (apply Forall_cons; [|]); [| | |constructor].
  - rcall. apply reads_alt; (eapply reads_weaken; [apply reads_str|]); intros t -> z Z; constructor; auto.
  - eapply reads_weaken; [apply reads_newline|]. intros t T z Z. apply layout_app; [apply newline_layout, T|exact Z].
  - apply reads_alt; [|eapply reads_weaken; [apply reads_str|]; intros t -> z Z; constructor; auto].
    intros s ps s' N Y. inversion Y; subst. rewrite no_skip in *.
    match goal with H : y at_ (PNot _) _ _ _ |- _ => inversion H; subst; clear H end.
    match goal with H : y at_ (icall I_line_comment) _ _ _ |- _ => rename H into L end.
    assert (K : reads n at_ (icall I_line_comment) (parts [word "//"; comment_text; newline_text])).
    { rcall. apply reads_seqs. repeat constructor; [apply reads_str|apply reads_comment|apply reads_newline]. }
    destruct (K _ _ _ N L) as (t & E & (a & r & -> & (b & r' & B & (nl & r'' & NL & -> & ->) & ->) & ->)). subst.
    eexists. split; [reflexivity|]. intros z Z. rewrite app_nil_r.
    assert (HD : hd_error b <> Some "/"%char).
    { intros X. destruct b as [|c b]; [discriminate X|]. injection X as ->.
      match goal with H : evals _ at_ (itok "///") _ None |- _ => rename H into NS end.
      assert (X := ev_str smithy_grammar at_ (lit "///") ((b ++ nl ++ []) ++ s')).
      assert (Q := evals_fun _ _ _ _ _ _ NS X). discriminate Q. }
    destruct NL as [<-|[<-|[<-|[]]]].
    + replace ((lit "//" ++ b ++ [ascii_of_N 10]) ++ z) with ("/"%char :: "/"%char :: b ++ ascii_of_N 10 :: z) by (rewrite <- !app_assoc; reflexivity).
      apply layout_comment; auto.
    + replace ((lit "//" ++ b ++ [ascii_of_N 13; ascii_of_N 10]) ++ z) with ("/"%char :: "/"%char :: b ++ ascii_of_N 13 :: ascii_of_N 10 :: z) by (rewrite <- !app_assoc; reflexivity).
      apply layout_comment; auto. apply layout_char; auto.
    + replace ((lit "//" ++ b ++ [ascii_of_N 13]) ++ z) with ("/"%char :: "/"%char :: b ++ ascii_of_N 13 :: z) by (rewrite <- !app_assoc; reflexivity).
      apply layout_comment; auto.
Qed.
(** ** Texts *)
Definition plain_char : lang := fun t => exists c, (32 <= c <= 69631)%N /\ c <> 34%N /\ c <> 92%N /\ forall z, decode1 (t ++ z) = Some (c, z).
Definition any_char : lang := fun t => exists c, (32 <= c <= 69631)%N /\ forall z, decode1 (t ++ z) = Some (c, z).
Lemma plains n at_ (L : lang) : (forall t, plain_char t -> L t) -> Forall (fun e => reads n at_ e L) plain_chars.
Proof.
  intros H. repeat (apply Forall_cons; [|]); [| | |constructor]; (eapply reads_weaken; [apply reads_range|]); intros t (c & B & D); apply H;
    exists c; (split; [lia|]); (split; [lia|]); (split; [lia|exact D]).
Qed.
(** An escape: a backslash, a character and perhaps more that is plain. *)
Definition escape_text : lang := parts [word "\"; any_char; many plain_char].
Lemma reads_escapes n at_ : Forall (fun e => reads n at_ e escape_text) [icall I_escaped_char; icall I_preserved_double].
Proof.
  assert (One : forall (e : pexp irule), reads n at_ e any_char -> reads n at_ e (parts [any_char; many plain_char])).
  { intros e H. eapply reads_weaken; [exact H|]. intros t T. exists t, []. split; [exact T|]. split; [exists [], []; repeat split; constructor|]. rewrite app_nil_r. reflexivity. }
  assert (Tok : forall x c, decode1 x = Some (c, []) -> (32 <= c <= 127)%N -> reads n at_ (PStr x) any_char).
  { intros x c D B. eapply reads_weaken; [apply reads_str|]. intros t ->. exists c. split; [lia|].
    apply SelectorSound.decode1_ascii in D as (a & -> & A); [|lia]. intros z. cbn [app decode1]. rewrite A.
    replace (c <? 128)%N with true; [reflexivity|]. symmetry. apply N.ltb_lt. lia. }
  assert (Esc : reads n at_ (icall I_escape) (word "\")) by (rcall; apply reads_str).
  apply Forall_cons; [|apply Forall_cons; [|constructor]]; rcall.
  - eapply reads_weaken; [apply reads_seq; [exact Esc|]|intros t T; exact T].
    apply reads_alts; [discriminate|]. repeat (apply Forall_cons; [|]); [..|constructor].
    1: apply One; rcall; eapply Tok; [reflexivity|split; vm_compute; discriminate].
    1: apply One; eapply Tok; [reflexivity|split; vm_compute; discriminate].
    1: apply One; rcall; eapply Tok; [reflexivity|split; vm_compute; discriminate].
    1-6: apply One; eapply Tok; [reflexivity|split; vm_compute; discriminate].
    assert (Hex : reads n at_ ASCII_HEX_DIGIT (before (many plain_char))).
    { assert (W : forall lo hi, (48 <= lo)%N -> (hi <= 102)%N -> (hi < 92 \/ 92 < lo)%N -> reads n at_ (PRange lo hi) (before (many plain_char))).
      { intros lo hi A B C. eapply reads_weaken; [apply reads_range|]. intros t (c & R & D) z Z. constructor; [|exact Z].
        exists c. repeat (split; [lia|]). exact D. }
      apply reads_alts; [discriminate|]. repeat (apply Forall_cons; [|]); [..|constructor]; apply W; lia. }
    rcall. eapply reads_weaken; [apply reads_seq; [eapply Tok; [reflexivity|split; vm_compute; discriminate]|apply reads_seq; [exact Hex|apply reads_seq; [exact Hex|apply reads_seq; [exact Hex|exact Hex]]]]|].
    intros t (u & v & U & (a1 & v1 & H1 & (a2 & v2 & H2 & (a3 & a4 & H3 & H4 & ->) & ->) & ->) & ->).
    exists u, (a1 ++ a2 ++ a3 ++ a4). split; [exact U|]. split; [|reflexivity]. exists (a1 ++ a2 ++ a3 ++ a4), []. split; [|rewrite app_nil_r; cbn; auto].
    apply H1, H2, H3. rewrite <- (app_nil_r a4). apply H4. constructor.
  - eapply reads_weaken; [apply reads_seq; [exact Esc|]|intros t T; exact T]. apply One.
    apply reads_alts; [discriminate|]. apply plains. intros t (c & B & _ & _ & D). exists c. auto.
Qed.
Lemma escape_before (B : lang) t : (forall s c s', decode1 s = Some (c, s') -> (32 <= c <= 69631)%N -> c <> 34%N -> c <> 92%N -> B s' -> B s) ->
  (forall s c s', decode1 s = Some (c, s') -> (32 <= c <= 69631)%N -> B s' -> B (ascii_of_N 92 :: s)) -> escape_text t -> before B t.
Proof.
  intros P E (a & r & -> & (b & r' & (c & R & D) & (m & r'' & M & -> & ->) & ->) & ->) z Z. rewrite app_nil_r. rewrite <- app_assoc.
  change (lit "\") with [ascii_of_N 92]. cbn [app]. rewrite <- app_assoc. eapply E; [apply D|exact R|]. clear D R.
  induction M as [|p q (c' & R & N1 & N2 & D) _ IH]; [exact Z|]. rewrite <- app_assoc. eapply P; [apply D|..]; auto.
Qed.
Lemma reads_quoted n at_ : reads n at_ (icall I_quoted_text) quoted_text.
Proof.
  rcall. eapply reads_weaken; [apply (reads_seqs n at_ _ [eq [dquote]; text_body; eq [dquote]]); repeat constructor|].
  - rcall. eapply reads_weaken; [apply reads_str|]. intros t ->. reflexivity.
  - rcall. apply reads_many; [constructor|]. apply reads_alts; [discriminate|]. apply Forall_app. split.
    + apply plains. intros t (c & B & N1 & N2 & D) z Z. eapply text_plain; [apply D|..]; assumption.
    + eapply Forall_impl; [|apply reads_escapes]. intros e H. eapply reads_weaken; [exact H|].
      intros t T. apply escape_before; [apply text_plain|apply text_escape|exact T].
  - rcall. eapply reads_weaken; [apply reads_str|]. intros t ->. reflexivity.
  - intros t (a & r & <- & (b & r' & B & (d & r'' & <- & -> & ->) & ->) & ->). exists b. split; [exact B|reflexivity].
Qed.
Lemma reads_key n at_ : reads n at_ (icall I_node_object_key) entry_key.
Proof. rcall. apply reads_alt; (eapply reads_weaken; [first [apply reads_quoted|apply reads_identifier]|]); intros t T; [left|right]; exact T. Qed.
(** ** Numbers *)
Lemma reads_digits n at_ : reads n at_ (PPlus ASCII_DIGIT) (some_of digit).
Proof. apply (reads_seqs n at_ [_; _] [digit; many digit]). repeat constructor; [apply reads_digit|apply reads_star, reads_digit]. Qed.
Lemma reads_number n at_ : reads n at_ (icall I_number) number_text.
Proof.
  assert (Minus : reads n at_ (icall I_minus) (word "-")) by (rcall; apply reads_str).
  rcall. apply reads_seqs. repeat constructor.
  - apply reads_opt, Minus.
  - rcall. apply reads_alt.
    + rcall. eapply reads_weaken; [apply reads_str|]. intros t T. left. exact T.
    + eapply reads_weaken; [apply reads_seq; [apply reads_ascii; reflexivity|apply reads_star, reads_digit]|].
      intros t (u & v & (c & -> & C) & V & ->). right. exists c, v. unfold in_range in C. apply andb_true_iff in C as [C1 C2]. apply N.leb_le in C1, C2.
      split; [intros ->; cbv in C1; congruence|]. split; [apply andb_true_iff; split; apply N.leb_le; lia|]. auto.
  - apply reads_opt. rcall. apply (reads_seqs n at_ [_; _]). repeat constructor; [rcall; apply reads_str|apply reads_digits].
  - apply reads_opt. rcall. apply reads_seqs. repeat constructor.
    + rcall. apply reads_alt; (eapply reads_weaken; [apply reads_str|]); intros t ->; cbn; auto.
    + apply reads_opt, reads_alt; rcall; (eapply reads_weaken; [apply reads_str|]); intros t ->; cbn; auto.
    + apply reads_digits.
Qed.
(** ** Blocks *)
Lemma reads_block_body s ps r : y true (PMore (PAlts ([PSeq (PNot (PStr [ascii_of_N 34; ascii_of_N 34; ascii_of_N 34])) (icall I_DQUOTE);
                              icall I_sp; NEWLINE]
                             ++ plain_chars ++ [icall I_escaped_char; icall I_preserved_double]))) s ps (three_quotes ++ r) ->
  exists t, s = t ++ three_quotes ++ r /\ block_body t.
Proof.
  set (e := PAlts _). intros Y. remember (three_quotes ++ r) as s' eqn:E. revert s ps s' Y E.
  apply (yields_more_ind smithy_grammar true e (fun s _ s' => s' = three_quotes ++ r -> exists t, s = t ++ s' /\ block_body t)).
  - intros s _ _. exists []. split; [reflexivity|constructor].
  - intros s p1 s1 p2 s2 Y1 _ IH ->. destruct (IH eq_refl) as (t & -> & T). clear IH. cbn [skip] in Y1.
    unfold e in Y1. cbn [app] in Y1. set (l := icall I_sp :: _) in Y1. change (y true (PAlt (PSeq (PNot (PStr [ascii_of_N 34; ascii_of_N 34; ascii_of_N 34])) (icall I_DQUOTE)) (PAlts l)) s p1 (t ++ three_quotes ++ r)) in Y1.
    inversion Y1; subst.
    + match goal with H : y true (PSeq _ _) _ _ _ |- _ => inversion H; subst; clear H end.
      match goal with H : y true (PNot _) _ _ _ |- _ => inversion H; subst; clear H end.
      match goal with H : y true (icall I_DQUOTE) _ _ _ |- _ => cbn [skip] in H; apply (reads_call (length s1) true I_DQUOTE (fun t => t = [dquote]) (reads_str _ _ _) _ _ _ (le_n _)) in H as (d & E & ->) end.
      subst s1. exists (dquote :: t). split; [reflexivity|]. constructor; [|exact T]. intros z Z.
      match goal with H : evals _ true _ _ None |- _ => rename H into NS end.
      assert (X := ev_str smithy_grammar true three_quotes (z ++ r)). rewrite app_assoc, <- Z in X.
      replace ((dquote :: t ++ three_quotes) ++ r) with ([dquote] ++ t ++ three_quotes ++ r) in X by (cbn [app]; rewrite <- app_assoc; reflexivity).
      assert (Q := evals_fun _ _ _ _ _ _ NS X). discriminate Q.
    + match goal with H : y true (PAlt (icall I_sp) _) _ _ _ |- _ => rename H into L; change (y true (PAlts l) s p1 (t ++ three_quotes ++ r)) in L end.
      assert (K : reads (length s) true (PAlts l) (before block_body)).
      { apply reads_alts; [discriminate|]. unfold l. apply Forall_cons; [|apply Forall_cons; [|apply Forall_app; split]].
        - rcall. apply reads_alt; (eapply reads_weaken; [apply reads_str|]); intros u -> z Z.
          + eapply (block_plain _ 32); [reflexivity|lia..|exact Z].
          + apply block_white; [cbn; auto|exact Z].
        - eapply reads_weaken; [apply reads_newline|]. intros u [<-|[<-|[<-|[]]]] z Z; repeat (apply block_white; [cbn; auto|]); exact Z.
        - apply plains. intros u (c & B & N1 & N2 & D) z Z. eapply block_plain; [apply D|..]; assumption.
        - eapply Forall_impl; [|apply reads_escapes]. intros e' H. eapply reads_weaken; [exact H|].
          intros u U. apply escape_before; [apply block_plain|apply block_escape|exact U]. }
      destruct (K _ _ _ (le_n _) L) as (u & -> & U). exists (u ++ t). rewrite <- app_assoc. split; [reflexivity|]. apply U, T.
Qed.
Lemma reads_block n at_ : reads n at_ (icall I_text_block) text_block.
Proof.
  rcall. change (PSeqs [icall I_DQUOTE; icall I_DQUOTE; icall I_DQUOTE; icall I_br; icall I_block_quoted_chars; icall I_DQUOTE; icall I_DQUOTE; icall I_DQUOTE])
    with (PSeq (icall I_DQUOTE) (PSeq (icall I_DQUOTE) (PSeq (icall I_DQUOTE) (PSeq (icall I_br) (PSeq (icall I_block_quoted_chars) (PSeqs [icall I_DQUOTE; icall I_DQUOTE; icall I_DQUOTE])))))).
  intros s ps s' N Y.
  assert (Q : forall m a, reads m a (icall I_DQUOTE) (fun t => t = [dquote])) by (intros; rcall; apply reads_str).
  do 3 (inversion Y; subst; clear Y; rewrite no_skip in *; match goal with H : y at_ (icall I_DQUOTE) _ _ _ |- _ => apply (Q _ _ _ _ _ (le_n _)) in H as (? & -> & ->) end;
        match goal with H : y at_ (PSeq _ _) _ _ _ |- _ => rename H into Y end).
  inversion Y; subst; clear Y; rewrite no_skip in *.
  match goal with H : y at_ (icall I_br) ?z _ _ |- _ => assert (B : reads (length z) at_ (icall I_br) layout) end.
  { rcall. eapply reads_weaken; [apply reads_seq; [apply reads_ws|apply reads_opt; rcall; apply reads_end]|].
    intros t (u & v & U & V & ->). destruct V as [->| ->]; rewrite app_nil_r; exact U. }
  match goal with H : y at_ (icall I_br) ?z _ _ |- _ => apply (B _ _ _ (le_n _)) in H as (w & -> & W) end. clear B.
  match goal with H : y at_ (PSeq _ _) _ _ _ |- _ => inversion H; subst; clear H; rewrite no_skip in * end.
  match goal with H : y at_ (PSeq _ _) ?z _ _ |- _ => assert (X : reads (length z) at_ (PSeqs [icall I_DQUOTE; icall I_DQUOTE; icall I_DQUOTE]) (parts [eq [dquote]; eq [dquote]; eq [dquote]])) end.
  { apply reads_seqs. repeat constructor; (eapply reads_weaken; [apply Q|]); intros t ->; reflexivity. }
  match goal with H : y at_ (PSeq _ _) ?z _ _ |- _ => apply (X _ _ _ (le_n _)) in H as (t & -> & (a1 & r1 & <- & (a2 & r2 & <- & (a3 & r3 & <- & -> & ->) & ->) & ->)) end. clear X.
  match goal with H : y at_ (icall I_block_quoted_chars) _ _ _ |- _ => inversion H; subst; clear H end.
  match goal with H : y _ (snd _) _ _ _ |- _ => apply yields_star_more in H; apply reads_block_body in H as (b & -> & B) end.
  exists (three_quotes ++ w ++ b ++ three_quotes). split; [rewrite <- !app_assoc; reflexivity|].
  exists three_quotes, (w ++ b ++ three_quotes). split; [reflexivity|]. split; [|reflexivity].
  exists w, (b ++ three_quotes). split; [exact W|]. split; [|reflexivity].
  exists b, three_quotes. split; [exact B|]. split; [|reflexivity]. exists three_quotes, []. cbn; auto.
Qed.
(** ** Values *)
Lemma nodes_many t : many (parts [node; layout]) t -> nodes t.
Proof.
  intros M. induction M as [|x l (a & r & A & (w & r' & W & -> & ->) & ->) _ IH]; [constructor|]. rewrite app_nil_r, <- app_assoc. constructor; assumption.
Qed.
Lemma entries_many t : many (parts [entry; layout]) t -> entries t.
Proof.
  intros M. induction M as [|x l (e & r & (k & r1 & K & (w & r2 & W & (c & r3 & -> & (w' & r4 & W' & (v & r5 & V & -> & ->) & ->) & ->) & ->) & ->) & (w'' & r6 & W'' & -> & ->) & ->) _ IH]; [constructor|].
  rewrite !app_nil_r. rewrite <- !app_assoc. constructor; assumption.
Qed.
Lemma reads_entry_of n at_ q : smithy_rule q = smithy_rule I_node_object_kvp -> reads n at_ (icall I_node_value) node -> reads n at_ (icall q) entry.
Proof.
  intros Q H. apply reads_call. rewrite Q. cbn [fst snd smithy_rule sub_atomic]. apply reads_seqs. repeat constructor;
    first [apply reads_key|apply reads_ws|apply reads_str|exact H].
Qed.
Lemma reads_object_of n at_ : (forall m, m < n -> reads m at_ (icall I_node_value) node) -> reads n at_ (icall I_node_object) object.
Proof.
  intros IH. rcall. change (PSeqs [itok "{"; iws; PStar (PSeq (icall I_node_object_kvp) iws); itok "}"])
    with (PSeq (itok "{") (PSeqs [iws; PStar (PSeq (icall I_node_object_kvp) iws); itok "}"])).
  eapply reads_weaken; [apply reads_token; [discriminate|]|].
  - intros m M. apply (reads_seqs m at_ _ [layout; many (parts [entry; layout]); word "}"]). repeat constructor; [apply reads_ws| |apply reads_str].
    apply reads_star. apply (reads_seqs m at_ [_; _]). repeat constructor; [|apply reads_ws]. apply reads_entry_of; [reflexivity|auto].
  - intros t (v & (w & r & W & (l & r' & L & (c & r'' & -> & -> & ->) & ->) & ->) & ->). exists (lit "{"), (w ++ l ++ lit "}" ++ []). split; [reflexivity|]. split; [|reflexivity].
    exists w, (l ++ lit "}" ++ []). split; [exact W|]. split; [|reflexivity]. exists l, (lit "}" ++ []). split; [apply entries_many, L|]. split; [|reflexivity]. exists (lit "}"), []. repeat split.
Qed.
Lemma reads_node at_ : forall n, reads n at_ (icall I_node_value) node.
Proof.
  induction n as [n IH] using lt_wf_ind. rcall. apply reads_alts; [discriminate|]. repeat (apply Forall_cons; [|]); [..|constructor].
  - rcall. change (PSeqs [itok "["; iws; PStar (PSeq (icall I_node_value) iws); itok "]"])
      with (PSeq (itok "[") (PSeqs [iws; PStar (PSeq (icall I_node_value) iws); itok "]"])).
    eapply reads_weaken; [apply reads_token; [discriminate|]|].
    + intros m M. apply (reads_seqs m at_ _ [layout; many (parts [node; layout]); word "]"]). repeat constructor; [apply reads_ws| |apply reads_str].
      apply reads_star. apply (reads_seqs m at_ [_; _]). repeat constructor; [auto|apply reads_ws].
    + intros t (v & (w & r & W & (l & r' & L & (c & r'' & -> & -> & ->) & ->) & ->) & ->). rewrite app_nil_r. apply node_array; [exact W|apply nodes_many, L].
  - eapply reads_weaken; [apply reads_object_of, IH|].
    intros t (o & r0 & -> & (w & r & W & (l & r' & L & (c & r'' & -> & -> & ->) & ->) & ->) & ->). rewrite app_nil_r. apply node_object; assumption.
  - eapply reads_weaken; [apply reads_number|apply node_number].
  - rcall. apply reads_alts; [discriminate|]. repeat (apply Forall_cons; [|]); [..|constructor]; rcall; (eapply reads_weaken; [apply reads_str|]);
      intros t ->; apply node_keyword; cbn; auto.
  - eapply reads_weaken; [apply reads_shape_id|apply node_ref].
  - eapply reads_weaken; [apply reads_block|apply node_block].
  - eapply reads_weaken; [apply reads_quoted|apply node_text_].
Qed.
Lemma reads_object n at_ : reads n at_ (icall I_node_object) object.
Proof. apply reads_object_of. intros m _. apply reads_node. Qed.
(** ** Shapes *)
Lemma reads_trait n at_ : reads n at_ (icall I_a_trait) trait.
Proof.
  rcall. apply reads_seqs. repeat constructor; [apply reads_str|apply reads_shape_id|]. apply reads_opt. rcall.
  apply reads_seqs. repeat constructor; [apply reads_str|apply reads_ws| |apply reads_str].
  set (item := parts [either entry node; layout]).
  assert (Join : forall u v, many item u -> many item v -> many item (u ++ v)).
  { intros u v U V. induction U; [exact V|]. rewrite <- app_assoc. constructor; assumption. }
  (** The text of some entries, the last of which has no layout behind it. *)
  set (chain := fun t => exists u v, many item u /\ either entry node v /\ t = u ++ v).
  assert (Step : reads n at_ (PSeq (icall I_trait_body_value) iws) (many item)).
  { eapply reads_weaken; [apply reads_seq; [|apply reads_ws]|].
    - instantiate (1 := chain). rcall. apply reads_alt.
      + rcall. eapply reads_weaken; [apply reads_seq; [apply (reads_entry_of n at_ I_trait_structure_kvp); [reflexivity|apply reads_node]|]|].
        * apply reads_star. apply (reads_seqs n at_ [_; _]). repeat constructor; [apply reads_ws|apply (reads_entry_of n at_ I_trait_structure_kvp); [reflexivity|apply reads_node]].
        * intros t (u & v & U & V & ->). revert u U. induction V as [|x l (w & r & W & (e & r' & E & -> & ->) & ->) _ IH]; intros u U.
          -- exists [], u. split; [constructor|]. split; [left; exact U|]. apply app_nil_r.
          -- destruct (IH e E) as (u' & v' & U' & V' & Q). exists ((u ++ w) ++ u'), v'. split; [|split; [exact V'|]].
             ++ constructor; [|exact U']. exists u, w. split; [left; exact U|]. split; [|reflexivity]. exists w, []. rewrite app_nil_r. cbn; auto.
             ++ rewrite app_nil_r, <- !app_assoc, Q. reflexivity.
      + eapply reads_weaken; [apply reads_node|]. intros t T. exists [], t. split; [constructor|]. split; [right; exact T|reflexivity].
    - intros t (u & w & (a & b & A & B & ->) & W & ->). rewrite <- app_assoc. apply Join; [exact A|]. rewrite <- (app_nil_r (b ++ w)). constructor; [|constructor].
      exists b, w. split; [exact B|]. split; [|reflexivity]. exists w, []. rewrite app_nil_r. cbn; auto. }
  eapply reads_weaken; [apply reads_star, Step|]. intros t M. induction M; [constructor|]. apply Join; assumption.
Qed.
Lemma reads_documentation n at_ : reads n at_ (icall I_documentation_comment) documentation.
Proof. rcall. apply reads_seqs. repeat constructor; [apply reads_ws|apply reads_str|rcall; apply reads_comment|apply reads_newline]. Qed.
Lemma parts_app (ls ms : list lang) t : parts (ls ++ ms) t <-> exists u v, parts ls u /\ parts ms v /\ t = u ++ v.
Proof.
  revert t. induction ls as [|l ls IH]; intros t; cbn [app parts].
  - split; [intros H; exists [], t; auto|intros (u & v & -> & V & ->); exact V].
  - split.
    + intros (a & b & A & B & ->). apply IH in B as (u & v & U & V & ->). exists (a ++ u), v. rewrite <- app_assoc. split; [eauto|auto].
    + intros (x & v & (a & u & A & U & ->) & V & ->). exists a, (u ++ v). rewrite <- app_assoc. split; [exact A|]. split; [|reflexivity]. apply IH. eauto.
Qed.
(** The parts of a heading, in a row of parts. *)
Lemma heading_parts (ms : list lang) t : parts ([many documentation; layout; parts [many (parts [layout; trait]); layout]] ++ ms) t -> parts (heading :: ms) t.
Proof.
  intros H. apply parts_app in H as (u & v & (d & r & D & (w & r' & W & (x & r'' & (a & b & A & (c & e & C & -> & ->) & ->) & -> & ->) & ->) & ->) & V & ->).
  eexists _, v. split; [|split; [exact V|reflexivity]]. exists d, (w ++ a ++ c). split; [exact D|]. split; [|rewrite !app_nil_r; reflexivity].
  exists w, (a ++ c). split; [exact W|]. split; [|reflexivity]. exists a, c. split; [exact A|]. split; [|reflexivity]. exists c, []. rewrite app_nil_r. cbn; auto.
Qed.
Lemma reads_traits n at_ : reads n at_ (icall I_trait_statements) (parts [many (parts [layout; trait]); layout]).
Proof.
  rcall. apply (reads_seqs n at_ [_; _]). repeat constructor; [|apply reads_ws]. apply reads_star. apply (reads_seqs n at_ [_; _]).
  repeat constructor; [apply reads_ws|apply reads_trait].
Qed.
Lemma reads_member n at_ : reads n at_ (icall I_shape_member_kvp) member.
Proof.
  rcall. eapply reads_weaken; [apply reads_seqs|].
  - repeat constructor; [apply reads_star, reads_documentation|apply reads_ws|apply reads_traits|apply reads_identifier|apply reads_ws|apply reads_str|apply reads_ws|apply reads_shape_id].
  - intros t T. apply heading_parts. exact T.
Qed.
Lemma reads_members n at_ : reads n at_ (icall I_shape_members) members.
Proof.
  rcall. apply reads_seqs. repeat constructor; [apply reads_str|apply reads_ws| |apply reads_str]. apply reads_star. apply (reads_seqs n at_ [_; _]).
  repeat constructor; [apply reads_member|apply reads_ws].
Qed.
Lemma reads_types n at_ : reads n at_ (icall I_simple_type_name) (one_of_words simple_types).
Proof.
  rcall. apply reads_alts; [discriminate|]. unfold type_rules. cbn [map]. repeat (apply Forall_cons; [|]); [..|constructor];
    rcall; (eapply reads_weaken; [apply reads_str|]); intros t ->; cbn; tauto.
Qed.
Lemma reads_keyword n at_ q k b (ws : list string) L : smithy_rule q = keyword k I_identifier b -> In k ws -> reads n at_ (icall b) L ->
  reads n at_ (icall q) (parts [one_of_words ws; layout; short_identifier; layout; L]).
Proof.
  intros Q K B. apply reads_call. rewrite Q. unfold keyword. cbn [fst snd sub_atomic]. apply reads_seqs.
  repeat constructor; [|apply reads_ws|apply reads_identifier|apply reads_ws|exact B].
  eapply reads_weaken; [apply reads_str|]. intros t ->. apply in_map, K.
Qed.
Lemma reads_body n at_ : reads n at_ (icall I_shape_body) shape_body.
Proof.
  rcall. apply reads_alts; [discriminate|]. unfold body_rules. cbn [map]. repeat (apply Forall_cons; [|]); [..|constructor].
  1: eapply reads_weaken; [rcall; apply reads_seqs; repeat constructor; [apply reads_types|apply reads_ws|apply reads_identifier]|intros t T; left; exact T].
  1-5: eapply reads_weaken; [eapply (reads_keyword n at_ _ _ _ ["list"; "set"; "map"; "structure"; "union"]%string); [reflexivity|cbn; tauto|apply reads_members]|intros t T; right; left; exact T].
  all: eapply reads_weaken; [eapply (reads_keyword n at_ _ _ _ ["service"; "operation"; "resource"]%string); [reflexivity|cbn; tauto|apply reads_object]|intros t T; right; right; exact T].
Qed.
Lemma reads_statement n at_ : reads n at_ (PAlt (icall I_shape_statement) (icall I_apply_statement)) statement.
Proof.
  apply reads_alt; rcall; (eapply reads_weaken; [apply reads_seqs; repeat constructor|]).
  - apply reads_star, reads_documentation.
  - apply reads_ws.
  - apply reads_traits.
  - apply reads_body.
  - apply reads_ws.
  - intros t T. left. apply heading_parts. exact T.
  - apply reads_str.
  - apply reads_ws.
  - apply reads_shape_id.
  - apply reads_ws.
  - apply reads_trait.
  - apply reads_ws.
  - intros t T. right. exact T.
Qed.
(** ** Documents *)
Lemma reads_plus n at_ a L : reads n at_ a L -> reads n at_ (PPlus a) (many L).
Proof.
  intros H. eapply reads_weaken; [apply reads_seq; [exact H|apply reads_star, H]|]. intros t (u & v & U & V & ->). constructor; assumption.
Qed.
Lemma optional_many (L : lang) t : optional (many L) t -> many L t.
Proof. intros [->|H]; [constructor|exact H]. Qed.
Lemma reads_idl n at_ s ps s' : length s <= n -> y at_ (icall I_idl) s ps s' -> s' = [] /\ idl_language s.
Proof.
  intros N Y.
  assert (K : reads n at_ (icall I_idl) (fun t => idl_language t)).
  { rcall. eapply reads_weaken; [apply (reads_seqs n at_ _ [eq []; layout; many control_statement; many metadata_statement; optional shapes_section; eq []]); repeat constructor|].
    - eapply reads_weaken; [apply reads_str|]. intros t ->. reflexivity.
    - apply reads_ws.
    - rcall. apply reads_star. rcall. apply reads_seqs.
      repeat constructor; [apply reads_str|apply reads_ws|apply reads_key|apply reads_ws|apply reads_str|apply reads_ws|apply reads_node|apply reads_ws].
    - rcall. apply reads_star. rcall. apply reads_seqs.
      repeat constructor; [apply reads_str|apply reads_ws|apply reads_key|apply reads_ws|apply reads_str|apply reads_ws|apply reads_node|apply reads_ws].
    - rcall. apply reads_opt. eapply reads_weaken; [apply (reads_seqs n at_ _ [parts [word "namespace"; layout; dotted_name; layout]; many use_statement; many statement]); repeat constructor|].
      + rcall. apply reads_seqs. repeat constructor; [apply reads_str|apply reads_ws|apply reads_namespace|apply reads_ws].
      + eapply reads_weaken; [apply reads_opt; rcall; apply reads_plus|apply optional_many]. rcall. apply reads_seqs.
        repeat constructor; [apply reads_str|apply reads_ws|apply reads_absolute|apply reads_ws].
      + eapply reads_weaken; [apply reads_opt; rcall; apply reads_plus, reads_statement|apply optional_many].
      + intros t (u & v & U & V & ->). apply (parts_app [word "namespace"; layout; dotted_name; layout]). eauto.
    - rcall. eapply reads_weaken; [apply reads_end|]. intros t ->. reflexivity.
    - intros t (x & r & <- & T & ->). apply (parts_app [layout; many control_statement; many metadata_statement; optional shapes_section] [eq []]) in T as (u & v & U & (z & z' & <- & -> & ->) & ->).
      rewrite !app_nil_r. exact U. }
  assert (E : s' = []).
  { inversion Y; subst. match goal with H : y _ (snd _) _ _ _ |- _ => cbn [g_rule smithy_grammar smithy_rule snd] in H; rename H into H0 end.
    do 5 (inversion H0; subst; clear H0; match goal with H : y _ (PSeq _ _) _ _ _ |- _ => rename H into H0 | H : y _ (icall I_EOI) _ _ _ |- _ => rename H into H0 end).
    inversion H0; subst. match goal with H : y _ (snd _) _ _ _ |- _ => inversion H; subst end. reflexivity. }
  destruct (K _ _ _ N Y) as (t & -> & T). subst s'. rewrite app_nil_r. auto.
Qed.
