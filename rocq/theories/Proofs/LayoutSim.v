(** Running the grammar on two documents with the same tokens, in step. *)
From Verif.Model Require Import SmithyGrammar Values.
From Verif.Spec Require Import SmithySpec LayoutSpec.
From Verif.Proofs Require Import BaseFacts PegFacts SmithyGrammarFacts LayoutFacts BlockFacts.
From Verif.Proofs Require SelectorGrammarFacts.

(** ** Positions *)
(** At a token; after a word; after a delimiter. *)
(** [Key] and [KeySync]: after what may be the first two of the three quotes of a block, which is then no key. *)
Inductive mode := Sync | Word | Loose | KeySync | Key.
Definition mode_le (a b : mode) : bool :=
  match a, b with
  | Sync, _ => true | Word, Word | Word, Loose | Word, Key => true | Loose, Loose | Loose, Key => true
  | KeySync, KeySync | KeySync, Key | Key, Key => true
  | _, _ => false
  end.
Definition join_mode (a b : mode) : mode := if mode_le a b then b else if mode_le b a then a else Key.
Definition at_word (s t : str) : Prop := exists g g' s' t', s = g ++ s' /\ t = g' ++ t' /\ gaps g g' s' /\ same s' t'.
Definition at_gap (s t : str) : Prop := exists g g' s' t', s = g ++ s' /\ t = g' ++ t' /\ layout g /\ layout g' /\ same s' t'.
Definition broken (s t : str) : Prop := hd_error s = Some dquote /\ hd_error t = Some dquote.
Definition rel (m : mode) (s t : str) : Prop :=
  match m with
  | Sync => same s t | Word => at_word s t | Loose => at_gap s t
  | KeySync => same s t \/ broken s t | Key => at_gap s t \/ broken s t
  end.

Lemma gaps_nil s : gaps [] [] s.
Proof. repeat split; try constructor. tauto. Qed.
Lemma rel_le a b s t : mode_le a b = true -> rel a s t -> rel b s t.
Proof.
  assert (SG : forall s t, same s t -> at_gap s t) by (intros s0 t0 H; exists [], [], s0, t0; repeat split; try constructor; exact H).
  assert (WG : forall s t, at_word s t -> at_gap s t).
  { intros s0 t0 H. destruct H as (g & g' & s' & t' & A & B & (L1 & L2 & _) & S). exists g, g', s', t'. auto. }
  destruct a, b; cbn; intros L H; try discriminate L; try exact H; auto.
  - exists [], [], s, t. repeat split; try constructor; [tauto|exact H].
  - destruct H as [H|H]; auto.
Qed.
Lemma join_l a b : mode_le a (join_mode a b) = true. Proof. destruct a, b; reflexivity. Qed.
Lemma join_r a b : mode_le b (join_mode a b) = true. Proof. destruct a, b; reflexivity. Qed.

Lemma symbol_head c : symbol c = true -> space_char c = false /\ c <> "/"%char /\ c <> dquote.
Proof. intros H. all_chars c; try discriminate H; repeat split; (reflexivity || discriminate). Qed.
Lemma delimiter_symbol c : delimiter c = true -> symbol c = true.
Proof. intros H. all_chars c; try discriminate H; reflexivity. Qed.
Lemma symbol_head_ok c s : symbol c = true -> head_ok (c :: s).
Proof. intros H. apply symbol_head in H as (A & B & _). split; [exact A|]. intros r E. injection E as E _. congruence. Qed.
Lemma same_heads s t : same s t -> hd_error s = hd_error t /\ head_ok s /\ head_ok t.
Proof.
  destruct 1 as [|c g g' s t SY D G S|c g g' s t D L L' S|q g g' s t T G N S|q h h' g g' s t H H' T A G S|b g g' s t B L L' S]; cbn [hd_error quoted app].
  - repeat split.
  - repeat split; apply symbol_head_ok; assumption.
  - apply delimiter_symbol in D. repeat split; apply symbol_head_ok; assumption.
  - repeat split; try discriminate.
  - repeat split; discriminate.
  - repeat split; intros r E; injection E as <-; reflexivity.
Qed.
Lemma layout_hd g s c : layout g -> g <> [] -> symbol c = true -> hd_error (g ++ s) <> Some c.
Proof.
  intros L N S E. apply layout_head in L. destruct g as [|x g]; [congruence|]. cbn in E. injection E as ->.
  apply symbol_head in S as (A & B & _). destruct L; congruence.
Qed.

(** ** Which expressions run in step *)
Definition char_step (m : mode) (c : ascii) : option mode :=
  if closes c then match m with Sync | KeySync => Some Loose | _ => None end
  else if symbol c then match m with Sync | Word => Some (if delimiter c then Loose else Word) | _ => None end
  else None.
Lemma rel_char m c m' s t : char_step m c = Some m' -> rel m s t ->
  (exists s1 t1, s = c :: s1 /\ t = c :: t1 /\ rel m' s1 t1) \/ (hd_error s <> Some c /\ hd_error t <> Some c).
Proof.
  intros C.
  assert (S : forall s t, same s t -> symbol c = true -> (if delimiter c then mode_le Loose m' else mode_le Word m') = true ->
    (exists s1 t1, s = c :: s1 /\ t = c :: t1 /\ rel m' s1 t1) \/ (hd_error s <> Some c /\ hd_error t <> Some c)).
  { clear s t C. intros s t S SY M.
    destruct S as [|c0 g g' s t SY0 D G S|c0 g g' s t D L L' S|q g g' s t T G N S|q h h' g g' s t H H' T A G S|b g g' s t B L L' S].
    - right. split; discriminate.
    - destruct (ascii_dec c0 c) as [-> |NE]; [|right; split; cbn; congruence]. left. eexists; eexists; split; [reflexivity|split; [reflexivity|]].
      rewrite D in M. apply (rel_le Word); [exact M|]. exists g, g', s, t. auto.
    - destruct (ascii_dec c0 c) as [-> |NE]; [|right; split; cbn; congruence]. left. eexists; eexists; split; [reflexivity|split; [reflexivity|]].
      rewrite D in M. apply (rel_le Loose); [exact M|]. exists g, g', s, t. auto.
    - right. apply symbol_head in SY as (_ & _ & Q). split; intros E; apply Q; injection E as E; symmetry; exact E.
    - right. apply symbol_head in SY as (_ & _ & Q). split; intros E; apply Q; injection E as E; symmetry; exact E.
    - right. apply symbol_head in SY as (_ & Q & _). split; intros E; apply Q; injection E as E; symmetry; exact E. }
  unfold char_step in C. destruct (closes c) eqn:CL.
  - assert (SY : symbol c = true) by (apply delimiter_symbol; unfold closes in CL; apply andb_true_iff in CL; tauto).
    assert (M : (if delimiter c then mode_le Loose Loose else mode_le Word Loose) = true) by (destruct (delimiter c); reflexivity).
    destruct m; try discriminate C; injection C as <-; [intros R; exact (S s t R SY M)|].
    intros [R|[B B']]; [exact (S s t R SY M)|]. right. rewrite B, B'. apply symbol_head in SY as (_ & _ & Q). split; congruence.
  - destruct (symbol c) eqn:SY; [|discriminate C].
    assert (M : (if delimiter c then mode_le Loose m' else mode_le Word m') = true)
      by (destruct m; try discriminate C; injection C as <-; destruct (delimiter c); reflexivity).
    destruct m; [intros R; exact (S s t R eq_refl M)| |discriminate C|discriminate C|discriminate C].
    intros (g & g' & s' & t' & -> & -> & (L & L' & E) & R).
    destruct g as [|x g], g' as [|x' g']; cbn [app].
    + exact (S s' t' R eq_refl M).
    + right. destruct E as [E|E]; [destruct E as [E _]; discriminate (E eq_refl)|].
      split; [|apply (layout_hd _ _ _ L' ltac:(discriminate) SY)].
      destruct s' as [|y s']; [discriminate|]. cbn in *. congruence.
    + right. destruct E as [E|E]; [destruct E as [_ E]; discriminate (E eq_refl)|].
      split; [apply (layout_hd _ _ _ L ltac:(discriminate) SY)|].
      destruct (same_heads _ _ R) as (<- & _). destruct s' as [|y s']; [discriminate|]. cbn in *. congruence.
    + right. split; [apply (layout_hd _ _ _ L ltac:(discriminate) SY)|apply (layout_hd _ _ _ L' ltac:(discriminate) SY)].
Qed.
Fixpoint str_step (x : str) (m : mode) : option mode :=
  match x with [] => Some m | c :: x' => match char_step m c with Some m' => str_step x' m' | None => None end end.
Lemma rel_str x : forall m m' s t, str_step x m = Some m' -> rel m s t ->
  (exists s1 t1, s = x ++ s1 /\ t = x ++ t1 /\ rel m' s1 t1) \/ (strip_prefix x s = None /\ strip_prefix x t = None).
Proof.
  induction x as [|c x IH]; intros m m' s t C R; cbn [str_step] in C.
  - injection C as <-. left. exists s, t. auto.
  - destruct (char_step m c) as [m1|] eqn:C1; [|discriminate C].
    destruct (rel_char _ _ _ _ _ C1 R) as [(s1 & t1 & -> & -> & R1)|[A B]].
    + destruct (IH _ _ _ _ C R1) as [(s2 & t2 & -> & -> & R2)|[A B]]; [left; exists s2, t2; auto|right].
      cbn [strip_prefix]. rewrite Ascii.eqb_refl. auto.
    + right. split; [destruct s as [|y s]|destruct t as [|y t]]; cbn [strip_prefix]; try reflexivity;
        (destruct (Ascii.eqb_spec c y) as [<- |]; [exfalso|reflexivity]); [apply A|apply B]; reflexivity.
Qed.
(** Ranges of letters or digits. *)
Definition word_range (lo hi : N) : bool :=
  (((48 <=? lo) && (hi <=? 57)) || ((65 <=? lo) && (hi <=? 90)) || ((97 <=? lo) && (hi <=? 122)))%N.
Lemma range_head lo hi s n s' : word_range lo hi = true -> decode1 s = Some (n, s') -> (lo <= n <= hi)%N ->
  exists c, s = c :: s' /\ ch_N c = n /\ (forall m, m = Sync \/ m = Word -> char_step m c = Some Word).
Proof.
  intros W D B.
  assert (R : (48 <= n <= 57 \/ 65 <= n <= 90 \/ 97 <= n <= 122)%N).
  { unfold word_range in W. rewrite !orb_true_iff, !andb_true_iff, !N.leb_le in W. lia. }
  destruct s as [|c s]; [discriminate D|]. exists c. unfold decode1 in D. destruct (ch_N c <? 128)%N eqn:L.
  - injection D as <- <-. repeat split. clear -R. intros m M. destruct M as [-> | ->]; all_chars c; try reflexivity; exfalso; cbv in R; intuition congruence.
  - exfalso. destruct (ch_N c <? 192)%N; [discriminate|]. unfold at_least in D.
    repeat match type of D with context [match ?x with _ => _ end] => destruct x eqn:?; try discriminate D end;
    injection D as D _; subst; match goal with H : (_ <=? _)%N = true |- _ => apply N.leb_le in H; lia end.
Qed.

(** The modes in which a rule can start and ends. *)
Definition typing (q : irule) : option (mode * mode) :=
  match q with
  | I_ws => Some (Loose, Sync)
  | I_documentation_comment => Some (Loose, Loose)
  | I_quoted_text => Some (Sync, Key)
  | I_text_block => Some (Sync, Word)
  | I_sp | I_br | I_line_comment | I_documentation_text | I_trailing_comma | I_comma | I_quoted_chars | I_escaped_char
  | I_unicode_escape | I_preserved_double | I_escape | I_block_quoted_chars | I_DQUOTE => None
  | I_EOI => Some (Sync, Sync)
  | I_idl => Some (Loose, Sync)
  | I_control_section | I_metadata_section | I_shape_section | I_use_section | I_shape_statements | I_control_statement
  | I_metadata_statement | I_namespace_statement | I_use_statement | I_shape_statement | I_apply_statement => Some (Sync, Sync)
  | I_trait_statements => Some (Loose, Sync)
  | I_node_value | I_node_array | I_node_object | I_node_object_kvp | I_trait_structure_kvp | I_trait_body_value
  | I_trait_structure | I_shape_body | I_shape_members | I_shape_member_kvp
  | I_list_statement | I_set_statement | I_map_statement | I_structure_statement | I_union_statement
  | I_service_statement | I_operation_statement | I_resource_statement => Some (Sync, Loose)
  | I_trait_body | I_a_trait => Some (Word, Loose)
  | I_node_object_key => Some (Sync, Key)
  | _ => Some (Word, Word)
  end.
(** After a key that may be the beginning of a block only layout is expected. *)
Definition after_key (q : irule) (m : mode) : bool := match q, m with I_ws, Key => true | _, _ => false end.
(** Blocks are tried before texts. *)
Definition literals (a b : pexp irule) (m : mode) : bool :=
  match a with
  | PCall q => match q with I_text_block => match b with PCall r => match r with I_quoted_text => match m with Sync => true | _ => false end | _ => false end | _ => false end | _ => false end
  | _ => false
  end.
Lemma literals_spec a b m : literals a b m = true -> a = PCall I_text_block /\ b = PCall I_quoted_text /\ m = Sync.
Proof.
  destruct a as [| |q| | | | | | |]; try discriminate. destruct q; try discriminate. cbn.
  destruct b as [| |r| | | | | | |]; try discriminate. destruct r; try discriminate. destruct m; try discriminate. auto.
Qed.
Fixpoint check (e : pexp irule) (m : mode) : option mode :=
  match e with
  | PStr x => str_step x m
  | PRange lo hi => if word_range lo hi then match m with Sync | Word => Some Word | _ => None end else None
  | PCall q => if after_key q m then Some KeySync else match typing q with Some (a, b) => if mode_le m a then Some b else None | None => None end
  | PSeq a b => match check a m with Some m1 => check b m1 | None => None end
  | PAlt a b =>
      if literals a b m then Some Word
      else match check a m, check b m with Some x, Some y => Some (join_mode x y) | _, _ => None end
  | POpt a => match check a m with Some x => Some (join_mode m x) | None => None end
  | PStar a =>
      match check a m with
      | Some x =>
          let p := join_mode m x in
          match check a p with Some y => if mode_le y p then Some p else None | None => None end
      | None => None
      end
  | PMore a => match check a m with Some y => if mode_le y m then Some m else None | None => None end
  | PNot _ => None
  | PEnd => match m with Sync => Some Sync | _ => None end
  end.
(** The rules that are treated on their own. *)
Definition lexical (q : irule) : bool :=
  match q with I_ws | I_documentation_comment | I_quoted_text | I_text_block => true | _ => false end.
Lemma typed q a b : lexical q = false -> typing q = Some (a, b) ->
  exists m, check (snd (smithy_rule q)) a = Some m /\ mode_le m b = true.
Proof. destruct q; intros L T; try discriminate L; try discriminate T; injection T as <- <-; vm_compute; eexists; (split; [reflexivity|reflexivity]). Qed.

(** Rules without gaps inside. *)
Definition leaf (q : irule) : bool :=
  match q with
  | I_shape_id | I_root_shape_id | I_absolute_root_shape_id | I_namespace | I_identifier | I_shape_id_member
  | I_number | I_decimal_point | I_e | I_exp | I_frac | I_int | I_minus | I_plus | I_zero
  | I_quoted_text | I_quoted_chars | I_block_quoted_chars | I_documentation_text => true
  | _ => false
  end.
Fixpoint tight (e : pexp irule) : bool :=
  match e with
  | PStr _ | PRange _ _ | PEnd => true
  | PCall q => leaf q
  | PSeq a b | PAlt a b => tight a && tight b
  | POpt a | PStar a | PMore a => tight a
  | PNot _ => true
  end.
Lemma leaf_tight q : leaf q = true -> lexical q = false -> typing q <> None -> tight (snd (smithy_rule q)) = true.
Proof. destruct q; intros L X T; try discriminate L; try discriminate X; try (exfalso; apply T; reflexivity); reflexivity. Qed.
(** A pair without the text of the rules that have gaps inside. *)
Fixpoint erase (p : pair irule) : pair irule :=
  match p with Pair q t ps => Pair q (if leaf q then t else []) (map erase ps) end.

(** ** In step *)
Definition agree (e : pexp irule) (m' : mode) (s t : str) (r r' : option (list (pair irule) * str)) : Prop :=
  match r, r' with
  | None, None => True
  | Some (ps, s1), Some (ps', t1) =>
      map erase ps = map erase ps' /\ rel m' s1 t1 /\ (tight e = true -> exists x, s = x ++ s1 /\ t = x ++ t1)
  | _, _ => False
  end.
Lemma same_text_cases s t : same s t ->
  (exists q s1 t1, s = quoted q ++ s1 /\ t = quoted q ++ t1 /\ text_body q /\ at_word s1 t1
     /\ hd_error s1 <> Some dquote /\ hd_error t1 <> Some dquote)
  \/ (exists q h h' s1 t1, s = block_quoted h q ++ s1 /\ t = block_quoted h' q ++ t1 /\ layout h /\ layout h' /\ block_body q
     /\ after_layout q /\ at_word s1 t1)
  \/ (hd_error s <> Some dquote /\ hd_error t <> Some dquote).
Proof.
  destruct 1 as [|c g g' s t SY D G S|c g g' s t D L L' S|q g g' s t T G N S|q h h' g g' s t H H' T A G S|b g g' s t B L L' S].
  - right. right. split; discriminate.
  - right. right. apply symbol_head in SY as (_ & _ & Q). split; intros E; apply Q; injection E as E; exact E.
  - right. right. apply delimiter_symbol, symbol_head in D as (_ & _ & Q). split; intros E; apply Q; injection E as E; exact E.
  - left. exists q, (g ++ s), (g' ++ t). split; [reflexivity|]. split; [reflexivity|]. split; [exact T|]. split; [exists g, g', s, t; auto|].
    destruct G as (L & L' & E).
    assert (HN : forall g s, layout g -> g <> [] -> hd_error (g ++ s) <> Some dquote).
    { clear. intros g s L NE E. apply layout_head in L. destruct g as [|x g]; [congruence|]. cbn [app hd_error] in E. injection E as ->.
      destruct L as [L|L]; discriminate L. }
    split; [destruct g; [exact (N eq_refl)|apply HN; [exact L|discriminate]]|].
    destruct g' as [|x g']; [|apply HN; [exact L'|discriminate]]. cbn [app]. destruct (same_heads _ _ S) as (<- & _).
    destruct g as [|y g]; [exact (N eq_refl)|]. destruct E as [E|E]; [destruct E as [_ E]; discriminate (E eq_refl)|].
    destruct s as [|z s]; [discriminate|]. intros X. injection X as ->. discriminate E.
  - right. left. exists q, h, h', (g ++ s), (g' ++ t). do 6 (split; [first [reflexivity|assumption]|]). exists g, g', s, t. auto.
  - right. right. split; discriminate.
Qed.
Lemma same_doc_cases s t : same s t ->
  (exists b s1 t1, s = lit "///" ++ b ++ ascii_of_N 10 :: s1 /\ t = lit "///" ++ b ++ ascii_of_N 10 :: t1 /\ comment_text b /\ at_gap s1 t1)
  \/ (strip_prefix (lit "///") s = None /\ strip_prefix (lit "///") t = None).
Proof.
  intros S. assert (H : forall c r, c <> "/"%char -> strip_prefix (lit "///") (c :: r) = None).
  { intros c r N. change (lit "///") with ("/"%char :: lit "//"). cbn [strip_prefix]. destruct (Ascii.eqb_spec "/" c); [congruence|reflexivity]. }
  destruct S as [|c g g' s t SY D G S|c g g' s t D L L' S|q g g' s t T G N S|q h h' g g' s t HH HH' T A G S|b g g' s t B L L' S].
  - right. split; reflexivity.
  - right. apply symbol_head in SY as (_ & Q & _). split; apply H, Q.
  - right. apply delimiter_symbol, symbol_head in D as (_ & Q & _). split; apply H, Q.
  - right. split; apply H; discriminate.
  - right. split; apply H; discriminate.
  - left. exists b, (g ++ s), (g' ++ t). repeat split; [exact B|]. exists g, g', s, t. auto.
Qed.
Lemma ev_documentation at_ g s b s1 : layout g -> s = lit "///" ++ b ++ ascii_of_N 10 :: s1 -> comment_text b ->
  ev at_ (icall I_documentation_comment) (g ++ s) (Some (seen Normal at_ I_documentation_text b [], s1)).
Proof.
  intros L -> B.
  assert (X : ev at_ (snd (smithy_rule I_documentation_comment)) (g ++ lit "///" ++ b ++ ascii_of_N 10 :: s1) (Some (seen Normal at_ I_documentation_text b [], s1))).
  { cbn [snd smithy_rule PSeqs]. refine (sq _ _ _ _ [] _ _ _ (ev_layout _ _ _ L _) _).
    { split; [reflexivity|]. intros z E. injection E as <-. reflexivity. }
    refine (sq_tok _ (lit "///") _ _ _ _ _).
    refine (sq_end _ _ _ _ _ (ascii_of_N 10 :: s1) _ _ _); [|apply ev_alt1; ev_compute].
    refine (ev_rule at_ I_documentation_text b [] _ _). cbn [fst snd smithy_rule sub_atomic]. refine (ev_comment _ b _ B _).
    intros c E. injection E as <-. split; cbv; congruence. }
  assert (Y := SelectorGrammarFacts.ev_call_any smithy_grammar at_ I_documentation_comment Silent _ _ _ _ eq_refl X). destruct at_; exact Y.
Qed.
Lemma ev_no_documentation at_ g s : layout g -> head_ok s -> strip_prefix (lit "///") s = None ->
  ev at_ (icall I_documentation_comment) (g ++ s) None.
Proof.
  intros L H N. apply ev_rule_fail. cbn [fst snd smithy_rule sub_atomic].
  refine (sq_fail _ _ _ _ [] _ (ev_layout _ _ _ L H) _). apply ev_seq_fail1, ev_str_fail, N.
Qed.
Lemma sim_lexical at_ q a b s t r : lexical q = true -> typing q = Some (a, b) -> rel a s t -> ev at_ (PCall q) s r ->
  exists r', ev at_ (PCall q) t r' /\ agree (PCall q) b s t r r'.
Proof.
  intros X T R E. destruct q; try discriminate X; injection T as <- <-; cbn [rel] in R.
  - destruct R as (g & g' & s' & t' & -> & -> & L & L' & S). destruct (same_heads _ _ S) as (_ & H & H').
    assert (r = Some ([], s')) as -> by (exact (evals_det _ _ _ _ _ _ E (ev_layout at_ g s' L H))).
    eexists. split; [exact (ev_layout at_ g' t' L' H')|]. repeat split; [exact S|discriminate].
  - destruct R as (g & g' & s' & t' & -> & -> & L & L' & S). destruct (same_heads _ _ S) as (_ & H & H').
    destruct (same_doc_cases _ _ S) as [(b & s1 & t1 & E1 & E2 & B & G)|[N N']].
    + assert (r = Some (seen Normal at_ I_documentation_text b [], s1)) as -> by (exact (evals_det _ _ _ _ _ _ E (ev_documentation at_ g s' b s1 L E1 B))).
      eexists. split; [exact (ev_documentation at_ g' t' b t1 L' E2 B)|]. repeat split; [exact G|discriminate].
    + assert (r = None) as -> by (exact (evals_det _ _ _ _ _ _ E (ev_no_documentation at_ g s' L H N))).
      exists None. split; [exact (ev_no_documentation at_ g' t' L' H' N')|exact I].
  - destruct (same_text_cases _ _ R) as [(q & s1 & t1 & -> & -> & TB & W & _ & _)|[(q & h & h' & s1 & t1 & -> & -> & L & L' & B & A & W)|[N N']]].
    + assert (r = Some (seen Normal at_ I_quoted_text (quoted q) (seen Atomic at_ I_quoted_chars q []), s1)) as ->
        by (exact (evals_det _ _ _ _ _ _ E (ev_text at_ q s1 TB))).
      eexists. split; [exact (ev_text at_ q t1 TB)|]. split; [reflexivity|]. split; [exact (rel_le Word Key _ _ eq_refl W)|]. intros _. eexists. split; reflexivity.
    + assert (r = Some (seen Normal at_ I_quoted_text (quoted []) (seen Atomic at_ I_quoted_chars [] []), (dquote :: h ++ q ++ three_quotes) ++ s1)) as ->
        by (exact (evals_det _ _ _ _ _ _ E (ev_text at_ [] _ text_nil))).
      eexists. split; [exact (ev_text at_ [] ((dquote :: h' ++ q ++ three_quotes) ++ t1) text_nil)|]. split; [reflexivity|].
      split; [right; split; reflexivity|]. intros _. exists (quoted []). split; reflexivity.
    + assert (r = None) as -> by (exact (evals_det _ _ _ _ _ _ E (ev_text_other at_ s N))).
      exists None. split; [exact (ev_text_other at_ t N')|exact I].
  - destruct (same_text_cases _ _ R) as [(q & s1 & t1 & -> & -> & TB & W & N & N')|[(q & h & h' & s1 & t1 & -> & -> & L & L' & B & A & W)|[N N']]].
    + exists None. assert (r = None) as -> by (exact (evals_det _ _ _ _ _ _ E (ev_block_fails at_ q s1 TB N))).
      split; [exact (ev_block_fails at_ q t1 TB N')|exact I].
    + assert (r = Some (seen Normal at_ I_text_block (block_quoted h q) (seen Atomic at_ I_block_quoted_chars q []), s1)) as ->
        by (exact (evals_det _ _ _ _ _ _ E (ev_block at_ h q s1 L B (after_layout_head q s1 A)))).
      eexists. split; [exact (ev_block at_ h' q t1 L' B (after_layout_head q t1 A))|]. split; [destruct at_; reflexivity|]. split; [exact W|discriminate].
    + exists None. assert (r = None) as -> by (exact (evals_det _ _ _ _ _ _ E (ev_block_other at_ s N))).
      split; [exact (ev_block_other at_ t N')|exact I].
Qed.
Lemma chain (s t s1 t1 s2 t2 : str) : (exists x, s = x ++ s1 /\ t = x ++ t1) -> (exists x, s1 = x ++ s2 /\ t1 = x ++ t2) ->
  exists x, s = x ++ s2 /\ t = x ++ t2.
Proof. intros (x & -> & ->) (y & -> & ->). exists (x ++ y). rewrite <- !app_assoc. auto. Qed.
Lemma no_move (s t : str) : exists x, s = x ++ s /\ t = x ++ t. Proof. exists []. auto. Qed.

Lemma sim : forall f at_ e m m' s t r, check e m = Some m' -> rel m s t -> run smithy_grammar f at_ e s = Some r ->
  exists r', ev at_ e t r' /\ agree e m' s t r r'.
Proof.
  induction f as [|f IH]; intros at_ e m m' s t r C R F; [discriminate F|].
  destruct e as [x|lo hi|q|a b|a b|a|a|a|a|].
  - cbn [run] in F. injection F as <-. destruct (rel_str x _ _ _ _ C R) as [(s1 & t1 & -> & -> & R1)|[N N']].
    + rewrite strip_prefix_app. eexists. split; [apply ev_str|]. repeat split; [exact R1|]. intros _. exists x. auto.
    + rewrite N. exists None. split; [apply ev_str_fail, N'|exact I].
  - cbn [run] in F. injection F as <-. cbn [check] in C. destruct (word_range lo hi) eqn:W; [|discriminate C].
    assert (ML : m = Sync \/ m = Word) by (destruct m; try discriminate C; auto). assert (m' = Word) as -> by (destruct m; congruence). clear C.
    assert (K : forall s t n s1, rel m s t \/ rel m t s -> decode1 s = Some (n, s1) -> (lo <= n <= hi)%N ->
       exists c t1, s = c :: s1 /\ t = c :: t1 /\ ch_N c = n).
    { intros s0 t0 n s1 R0 D B. destruct (range_head _ _ _ _ _ W D B) as (c & -> & E & M).
      destruct R0 as [R0|R0]; destruct (rel_char _ _ _ _ _ (M m ML) R0) as [(s2 & t2 & E1 & E2 & R1)|[N N']].
      - exists c, t2. injection E1 as <-. auto.
      - exfalso. apply N. reflexivity.
      - exists c, s2. auto.
      - exfalso. apply N'. reflexivity. }
    destruct (decode1 s) as [[n s1]|] eqn:D; [destruct ((lo <=? n) && (n <=? hi))%N eqn:B|].
    + apply andb_true_iff in B as [B1 B2]. apply N.leb_le in B1, B2.
      destruct (range_head _ _ _ _ _ W D (conj B1 B2)) as (c & -> & E & M).
      destruct (rel_char _ _ _ _ _ (M m ML) R) as [(s2 & t2 & E1 & -> & R1)|[N N']]; [|exfalso; apply N; reflexivity].
      injection E1 as <-. exists (Some ([], t2)). split.
      * apply (ev_range _ _ _ _ _ n); [|lia]. unfold decode1. assert (L : (ch_N c <? 128)%N = true).
        { apply N.ltb_lt. rewrite E. unfold word_range in W. rewrite !orb_true_iff, !andb_true_iff, !N.leb_le in W. lia. }
        rewrite L, E. reflexivity.
      * repeat split; [exact R1|]. intros _. exists [c]. auto.
    + exists None. split; [|exact I]. apply ev_range_fail. intros c t1 D1. destruct (N.ltb_spec c lo); [auto|]. destruct (N.ltb_spec hi c); [auto|].
      exfalso. destruct (K t s c t1 (or_intror R) D1) as (c0 & s2 & -> & -> & E); [lia|].
      assert (L : (ch_N c0 <? 128)%N = true).
      { apply N.ltb_lt. rewrite E. unfold word_range in W. rewrite !orb_true_iff, !andb_true_iff, !N.leb_le in W. lia. }
      unfold decode1 in D. rewrite L in D. injection D as <- _. rewrite E in B. apply andb_false_iff in B as [B|B]; apply N.leb_gt in B; lia.
    + exists None. split; [|exact I]. apply ev_range_fail. intros c t1 D1. destruct (N.ltb_spec c lo); [auto|]. destruct (N.ltb_spec hi c); [auto|].
      exfalso. destruct (K t s c t1 (or_intror R) D1) as (c0 & s2 & -> & -> & E); [lia|].
      assert (L : (ch_N c0 <? 128)%N = true).
      { apply N.ltb_lt. rewrite E. unfold word_range in W. rewrite !orb_true_iff, !andb_true_iff, !N.leb_le in W. lia. }
      unfold decode1 in D. rewrite L in D. discriminate D.
  - cbn [check] in C. destruct (after_key q m) eqn:AK.
    { unfold after_key in AK. destruct q; try discriminate AK. destruct m; try discriminate AK. injection C as <-.
      apply ev_run in F. destruct R as [R|[B B']].
      - destruct (sim_lexical at_ I_ws Loose Sync s t r eq_refl eq_refl R F) as (r' & E & A). exists r'. split; [exact E|].
        destruct r as [[ps s1]|], r' as [[ps' t1]|]; try exact A. destruct A as (EP & R1 & X). split; [exact EP|]. split; [left; exact R1|exact X].
      - assert (W : forall z, hd_error z = Some dquote -> ev at_ (PCall I_ws) z (Some ([], z))).
        { intros z Z. destruct z as [|c z]; [discriminate Z|]. injection Z as ->. apply (ev_layout at_ [] _ layout_nil). split; [reflexivity|discriminate]. }
        assert (r = Some ([], s)) as -> by (exact (evals_det _ _ _ _ _ _ F (W s B))).
        eexists. split; [exact (W t B')|]. split; [reflexivity|]. split; [right; split; assumption|]. intros _. apply no_move. }
    destruct (typing q) as [[p o]|] eqn:T; [|discriminate C]. destruct (mode_le m p) eqn:ML; [|discriminate C]. injection C as <-.
    assert (R0 := rel_le _ _ _ _ ML R).
    destruct (lexical q) eqn:LX; [exact (sim_lexical _ _ _ _ _ _ _ LX T R0 (ev_run _ _ _ _ _ _ F))|].
    destruct (typed _ _ _ LX T) as (m1 & C1 & L1). cbn [run] in F. cbn [g_rule smithy_grammar] in F.
    assert (GR : g_rule smithy_grammar q = smithy_rule q) by reflexivity.
    assert (LT := leaf_tight q).
    destruct (smithy_rule q) as [k body]. cbn [snd] in *.
    destruct (run smithy_grammar f match k with Atomic => true | _ => at_ end body s) as [[[ps s1]|]|] eqn:F1; [| |discriminate F].
    + injection F as <-. destruct (IH _ _ _ _ _ _ _ C1 R0 F1) as ([[ps' t1]|] & E & A); [|destruct A]. destruct A as (EP & R1 & X).
      eexists. split; [exact (SelectorGrammarFacts.ev_call_any smithy_grammar at_ q k body t t1 ps' GR E)|].
      split; [|split; [exact (rel_le _ _ _ _ L1 R1)|]].
      * unfold seen. destruct at_; [reflexivity|]. destruct k; try exact EP; cbn [map erase]; rewrite EP;
        (destruct (leaf q) eqn:LF; [|reflexivity]); destruct (X (LT eq_refl LX ltac:(congruence))) as (x & -> & ->); rewrite !taken_app; reflexivity.
      * cbn [tight]. intros LF. exact (X (LT LF LX ltac:(congruence))).
    + injection F as <-. destruct (IH _ _ _ _ _ _ _ C1 R0 F1) as ([[ps' t1]|] & E & A); [destruct A|].
      exists None. split; [|exact I]. apply ev_call_fail. rewrite GR. exact E.
  - cbn [check] in C. destruct (check a m) as [m1|] eqn:C1; [|discriminate C]. cbn [run] in F.
    destruct (run smithy_grammar f at_ a s) as [[[ps s1]|]|] eqn:F1; [| |discriminate F].
    + destruct (IH _ _ _ _ _ _ _ C1 R F1) as ([[ps' t1]|] & E1 & A1); [|destruct A1]. destruct A1 as (EP & R1 & X1).
      rewrite skip_id in F. destruct (run smithy_grammar f at_ b s1) as [[[qs s2]|]|] eqn:F2; [| |discriminate F]; injection F as <-.
      * destruct (IH _ _ _ _ _ _ _ C R1 F2) as ([[qs' t2]|] & E2 & A2); [|destruct A2]. destruct A2 as (EQ & R2 & X2).
        eexists. split; [exact (sq _ _ _ _ _ _ _ _ E1 E2)|]. split; [rewrite !map_app; congruence|]. split; [exact R2|].
        cbn [tight]. intros TT. apply andb_true_iff in TT as [T1 T2]. exact (chain _ _ _ _ _ _ (X1 T1) (X2 T2)).
      * destruct (IH _ _ _ _ _ _ _ C R1 F2) as ([[qs' t2]|] & E2 & A2); [destruct A2|].
        exists None. split; [exact (sq_fail _ _ _ _ _ _ E1 E2)|exact I].
    + injection F as <-. destruct (IH _ _ _ _ _ _ _ C1 R F1) as ([[ps' t1]|] & E1 & A1); [destruct A1|].
      exists None. split; [exact (ev_seq_fail1 _ _ _ _ _ E1)|exact I].
  - cbn [check] in C. destruct (literals a b m) eqn:LT.
    { apply literals_spec in LT as (-> & -> & ->). injection C as <-. apply ev_run in F.
      destruct (same_text_cases _ _ R) as [(q & s1 & t1 & -> & -> & TB & W & N & N')|[(q & h & h' & s1 & t1 & -> & -> & L & L' & B & A & W)|[N N']]].
      - assert (X := ev_alt2 _ _ _ _ _ _ (ev_block_fails at_ q s1 TB N) (ev_text at_ q s1 TB)). rewrite (evals_det _ _ _ _ _ _ F X).
        eexists. split; [exact (ev_alt2 _ _ _ _ _ _ (ev_block_fails at_ q t1 TB N') (ev_text at_ q t1 TB))|].
        split; [reflexivity|]. split; [exact W|discriminate].
      - assert (X := ev_alt1 _ at_ _ (PCall I_quoted_text) _ _ (ev_block at_ h q s1 L B (after_layout_head q s1 A))). rewrite (evals_det _ _ _ _ _ _ F X).
        eexists. split; [exact (ev_alt1 _ _ _ _ _ _ (ev_block at_ h' q t1 L' B (after_layout_head q t1 A)))|].
        split; [destruct at_; reflexivity|]. split; [exact W|discriminate].
      - assert (X := ev_alt2 _ _ _ _ _ _ (ev_block_other at_ s N) (ev_text_other at_ s N)). rewrite (evals_det _ _ _ _ _ _ F X).
        eexists. split; [exact (ev_alt2 _ _ _ _ _ _ (ev_block_other at_ t N') (ev_text_other at_ t N'))|exact I]. }
    destruct (check a m) as [m1|] eqn:C1; [|discriminate C]. destruct (check b m) as [m2|] eqn:C2; [|discriminate C]. injection C as <-.
    cbn [run] in F. destruct (run smithy_grammar f at_ a s) as [[[ps s1]|]|] eqn:F1; [| |discriminate F].
    + injection F as <-. destruct (IH _ _ _ _ _ _ _ C1 R F1) as ([[ps' t1]|] & E1 & A1); [|destruct A1]. destruct A1 as (EP & R1 & X1).
      eexists. split; [exact (ev_alt1 _ _ _ _ _ _ E1)|]. split; [exact EP|]. split; [exact (rel_le _ _ _ _ (join_l _ _) R1)|].
      cbn [tight]. intros TT. apply andb_true_iff in TT as [T1 T2]. exact (X1 T1).
    + destruct (IH _ _ _ _ _ _ _ C1 R F1) as ([[ps' t1]|] & E1 & A1); [destruct A1|].
      destruct (IH _ _ _ _ _ _ _ C2 R F) as (r' & E2 & A2). exists r'. split; [exact (ev_alt2 _ _ _ _ _ _ E1 E2)|].
      destruct r as [[ps s1]|], r' as [[ps' t1]|]; try exact A2. destruct A2 as (EP & R1 & X1).
      split; [exact EP|]. split; [exact (rel_le _ _ _ _ (join_r _ _) R1)|].
      cbn [tight]. intros TT. apply andb_true_iff in TT as [T1 T2]. exact (X1 T2).
  - cbn [check] in C. destruct (check a m) as [m1|] eqn:C1; [|discriminate C]. injection C as <-.
    cbn [run] in F. destruct (run smithy_grammar f at_ a s) as [[[ps s1]|]|] eqn:F1; [| |discriminate F]; injection F as <-.
    + destruct (IH _ _ _ _ _ _ _ C1 R F1) as ([[ps' t1]|] & E1 & A1); [|destruct A1]. destruct A1 as (EP & R1 & X1).
      eexists. split; [exact (ev_opt1 _ _ _ _ _ E1)|]. split; [exact EP|]. split; [exact (rel_le _ _ _ _ (join_r _ _) R1)|exact X1].
    + destruct (IH _ _ _ _ _ _ _ C1 R F1) as ([[ps' t1]|] & E1 & A1); [destruct A1|].
      eexists. split; [exact (ev_opt2 _ _ _ _ E1)|]. split; [reflexivity|]. split; [exact (rel_le _ _ _ _ (join_l _ _) R)|]. intros _. apply no_move.
  - cbn [check] in C. destruct (check a m) as [m1|] eqn:C1; [|discriminate C].
    destruct (check a (join_mode m m1)) as [m2|] eqn:C2; [|discriminate C]. destruct (mode_le m2 (join_mode m m1)) eqn:L2; [|discriminate C]. injection C as <-.
    cbn [run] in F. destruct (run smithy_grammar f at_ a s) as [[[ps s1]|]|] eqn:F1; [| |discriminate F].
    + destruct (IH _ _ _ _ _ _ _ C1 R F1) as ([[ps' t1]|] & E1 & A1); [|destruct A1]. destruct A1 as (EP & R1 & X1).
      assert (CM : check (PMore a) (join_mode m m1) = Some (join_mode m m1)) by (cbn [check]; rewrite C2, L2; reflexivity).
      destruct (run smithy_grammar f at_ (PMore a) s1) as [[[qs s2]|]|] eqn:F2; [| |discriminate F]; injection F as <-.
      * destruct (IH _ _ _ _ _ _ _ CM (rel_le _ _ _ _ (join_r _ _) R1) F2) as ([[qs' t2]|] & E2 & A2); [|destruct A2]. destruct A2 as (EQ & R2 & X2).
        eexists. split; [exact (ev_star_cons _ _ _ _ _ _ _ _ E1 E2)|]. split; [rewrite !map_app; congruence|]. split; [exact R2|].
        cbn [tight] in *. intros TT. exact (chain _ _ _ _ _ _ (X1 TT) (X2 TT)).
      * destruct (IH _ _ _ _ _ _ _ CM (rel_le _ _ _ _ (join_r _ _) R1) F2) as ([[qs' t2]|] & E2 & A2); [destruct A2|].
        exists None. split; [|exact I]. destruct E1 as [f1 E1], E2 as [f2 E2]. exists (S (f1 + f2)). cbn [run].
        rewrite (run_mono _ _ _ _ _ _ E1 (f1 + f2)) by lia. rewrite (run_mono _ _ _ _ _ _ E2 (f1 + f2)) by lia. reflexivity.
    + injection F as <-. destruct (IH _ _ _ _ _ _ _ C1 R F1) as ([[ps' t1]|] & E1 & A1); [destruct A1|].
      eexists. split; [exact (ev_star_nil _ _ _ _ E1)|]. split; [reflexivity|]. split; [exact (rel_le _ _ _ _ (join_l _ _) R)|]. intros _. apply no_move.
  - assert (CM := C). cbn [check] in C. destruct (check a m) as [m1|] eqn:C1; [|discriminate C]. destruct (mode_le m1 m) eqn:L1; [|discriminate C]. injection C as <-.
    cbn [run] in F. rewrite skip_id in F. destruct (run smithy_grammar f at_ a s) as [[[ps s1]|]|] eqn:F1; [| |discriminate F].
    + destruct (IH _ _ _ _ _ _ _ C1 R F1) as ([[ps' t1]|] & E1 & A1); [|destruct A1]. destruct A1 as (EP & R1 & X1).
      assert (E1' : ev at_ a (skip smithy_grammar at_ t) (Some (ps', t1))) by (rewrite skip_id; exact E1).
      destruct (run smithy_grammar f at_ (PMore a) s1) as [[[qs s2]|]|] eqn:F2; [| |discriminate F]; injection F as <-.
      * destruct (IH _ _ _ _ _ _ _ CM (rel_le _ _ _ _ L1 R1) F2) as ([[qs' t2]|] & E2 & A2); [|destruct A2]. destruct A2 as (EQ & R2 & X2).
        eexists. split; [exact (ev_more_cons _ _ _ _ _ _ _ _ E1' E2)|]. split; [rewrite !map_app; congruence|]. split; [exact R2|].
        cbn [tight] in *. intros TT. exact (chain _ _ _ _ _ _ (X1 TT) (X2 TT)).
      * destruct (IH _ _ _ _ _ _ _ CM (rel_le _ _ _ _ L1 R1) F2) as ([[qs' t2]|] & E2 & A2); [destruct A2|].
        exists None. split; [|exact I]. destruct E1' as [f1 E1'], E2 as [f2 E2]. exists (S (f1 + f2)). cbn [run].
        rewrite (run_mono _ _ _ _ _ _ E1' (f1 + f2)) by lia. rewrite (run_mono _ _ _ _ _ _ E2 (f1 + f2)) by lia. reflexivity.
    + injection F as <-. destruct (IH _ _ _ _ _ _ _ C1 R F1) as ([[ps' t1]|] & E1 & A1); [destruct A1|].
      eexists. split; [refine (ev_more_nil _ _ _ _ _); rewrite skip_id; exact E1|]. split; [reflexivity|]. split; [exact R|]. intros _. apply no_move.
  - discriminate C.
  - destruct m; try discriminate C. injection C as <-. cbn [run] in F. injection F as <-. cbn [rel] in R.
    destruct (same_heads _ _ R) as (H & _). destruct s as [|x s], t as [|y t]; try discriminate H.
    + eexists. split; [apply ev_end|]. split; [reflexivity|]. split; [exact R|]. intros _. apply no_move.
    + exists None. split; [exists 1; reflexivity|exact I].
Qed.
