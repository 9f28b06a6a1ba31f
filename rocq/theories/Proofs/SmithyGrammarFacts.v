(** The grammar of the Smithy IDL: it always terminates; what its rules match. *)
From Verif.Model Require Import SmithyGrammar Values.
From Verif.Spec Require Import SmithySpec.
From Verif.Proofs Require Import BaseFacts PegFacts.
From Verif.Proofs Require SelectorGrammarFacts.

(** ** Termination *)
Definition i_nullable (r : irule) : bool :=
  match r with
  | I_EOI | I_idl | I_ws | I_br | I_documentation_text | I_control_section | I_trailing_comma | I_quoted_chars
  | I_block_quoted_chars | I_shape_section | I_trait_statements | I_metadata_section => true
  | _ => false
  end.
Definition i_rank (r : irule) : nat :=
  match r with
  | I_ws | I_int | I_namespace | I_quoted_text | I_text_block | I_node_keywords | I_simple_type_name
  | I_control_section | I_metadata_section | I_use_section | I_shape_section | I_escaped_char | I_preserved_double
  | I_exp | I_frac | I_trailing_comma => 1
  | I_br | I_documentation_comment | I_number | I_absolute_root_shape_id | I_node_object_key | I_trait_statements
  | I_simple_shape_statement | I_quoted_chars | I_block_quoted_chars | I_idl => 2
  | I_root_shape_id | I_node_object_kvp | I_trait_structure_kvp | I_shape_body | I_shape_member_kvp => 3
  | I_shape_id | I_trait_structure | I_shape_statement => 4
  | I_node_value | I_shape_statements => 5
  | I_trait_body_value => 6
  | _ => 0
  end.
Lemma i_rules_ok : forall q, let (k, body) := g_rule smithy_grammar q in
  (nul i_nullable body = true -> i_nullable q = true)
  /\ ranked i_nullable i_rank 8 (i_rank q) body = true /\ size body < 100.
Proof.
  assert (H : forall q, (let (k, body) := g_rule smithy_grammar q in
    implb (nul i_nullable body) (i_nullable q) && ranked i_nullable i_rank 8 (i_rank q) body && (size body <? 100)%nat) = true)
    by (intros []; reflexivity).
  intros q. specialize (H q). destruct (g_rule smithy_grammar q) as [k body].
  apply andb_true_iff in H as [H Z]. apply andb_true_iff in H as [N R]. apply Nat.ltb_lt in Z.
  split; [|split; assumption]. intros E. rewrite E in N. exact N.
Qed.
Lemma smithy_total at_ q s : forall f, S (length s) * 4000 <= f -> exists r, run smithy_grammar f at_ (PCall q) s = Some r.
Proof.
  intros f F. refine (run_total smithy_grammar i_nullable i_rank 8 100 i_rules_ok f at_ (PCall q) s 8 _ _ _ _).
  - cbn. destruct q; reflexivity.
  - lia.
  - cbn. lia.
  - unfold cost. cbn [size]. lia.
Qed.

(** ** Matching *)
Notation ev := (evals smithy_grammar).
Ltac ev_compute := apply (ev_run _ 60); reflexivity.
Ltac all_chars c := destruct c as [[] [] [] [] [] [] [] []].

(** Nothing is skipped implicitly. *)
Lemma skip_id at_ s : skip smithy_grammar at_ s = s.
Proof. destruct at_; [reflexivity|]. destruct s; reflexivity. Qed.
Lemma sq at_ a b s ps s1 qs s2 : ev at_ a s (Some (ps, s1)) -> ev at_ b s1 (Some (qs, s2)) -> ev at_ (PSeq a b) s (Some (ps ++ qs, s2)).
Proof. intros A B. refine (ev_seq _ _ _ _ _ _ _ _ _ A _). rewrite skip_id. exact B. Qed.
Lemma sq_end at_ a b s ps s1 s2 : ev at_ a s (Some (ps, s1)) -> ev at_ b s1 (Some ([], s2)) -> ev at_ (PSeq a b) s (Some (ps, s2)).
Proof. intros A B. rewrite <- (app_nil_r ps). exact (sq _ _ _ _ _ _ _ _ A B). Qed.
Lemma sq_fail at_ a b s ps s1 : ev at_ a s (Some (ps, s1)) -> ev at_ b s1 None -> ev at_ (PSeq a b) s None.
Proof. intros A B. refine (ev_seq_fail2 _ _ _ _ _ _ _ A _). rewrite skip_id. exact B. Qed.
Lemma more_star at_ a s r : ev at_ (PStar a) s r -> ev at_ (PMore a) s r.
Proof. intros [f F]. destruct f as [|f]; [discriminate F|]. exists (S f). cbn [run] in *. rewrite skip_id. exact F. Qed.
Lemma star_cons at_ a s ps s1 qs s2 : ev at_ a s (Some (ps, s1)) -> ev at_ (PStar a) s1 (Some (qs, s2)) ->
  ev at_ (PStar a) s (Some (ps ++ qs, s2)).
Proof. intros A B. exact (ev_star_cons _ _ _ _ _ _ _ _ A (more_star _ _ _ _ B)). Qed.
Lemma sq_tok at_ x b s qs r : ev at_ b s (Some (qs, r)) -> ev at_ (PSeq (PStr x) b) (x ++ s) (Some (qs, r)).
Proof. intros B. exact (sq _ _ _ _ [] s qs r (ev_str _ _ _ _) B). Qed.

Lemma ev_rule at_ q x ps s : ev (sub_atomic (fst (smithy_rule q)) at_) (snd (smithy_rule q)) (x ++ s) (Some (ps, s)) ->
  ev at_ (icall q) (x ++ s) (Some (seen (fst (smithy_rule q)) at_ q x ps, s)).
Proof. intros H. refine (ev_call _ at_ q _ (snd (smithy_rule q)) x ps s _ H). cbn. destruct (smithy_rule q); reflexivity. Qed.
(** A rule that shows up with what it consumed. *)
Lemma ev_normal q x ps s : fst (smithy_rule q) = Normal -> ev false (snd (smithy_rule q)) (x ++ s) (Some (ps, s)) ->
  ev false (icall q) (x ++ s) (Some ([Pair q x ps], s)).
Proof. intros E H. assert (Q := ev_rule false q x ps s). rewrite E in Q. exact (Q H). Qed.
Lemma ev_silent q s ps s' : fst (smithy_rule q) = Silent -> ev false (snd (smithy_rule q)) s (Some (ps, s')) ->
  ev false (icall q) s (Some (ps, s')).
Proof.
  intros E H. refine (eq_ind _ (fun x => ev false (icall q) s (Some (x, s'))) (SelectorGrammarFacts.ev_call_any smithy_grammar false q Silent (snd (smithy_rule q)) s s' ps _ H) ps eq_refl).
  cbn. rewrite <- E. destruct (smithy_rule q); reflexivity.
Qed.
Lemma ev_rule_fail at_ q s : ev (sub_atomic (fst (smithy_rule q)) at_) (snd (smithy_rule q)) s None -> ev at_ (icall q) s None.
Proof. apply ev_call_fail. Qed.

(** A rule that is a literal. *)
Lemma ev_token q x s : smithy_rule q = (Normal, PStr x) -> ev false (icall q) (x ++ s) (Some ([Pair q x []], s)).
Proof. intros E. refine (ev_normal q x [] s _ _); rewrite E; [reflexivity|]. apply ev_str. Qed.

(** *** White space *)
Definition ws_char (c : ascii) : bool := existsb (Ascii.eqb c) [" "; ","; ascii_of_N 10; ascii_of_N 9; ascii_of_N 13]%char.
Definition blank (w : str) : Prop := Forall (fun c => existsb (Ascii.eqb c) [" "; ","; ascii_of_N 10]%char = true) w.
(** The rest of a documentation comment. *)
Definition is_doc (r : str) : bool := match r with a :: b :: _ => Ascii.eqb a "/" && Ascii.eqb b "/" | _ => false end.
Definition starts (c : ascii) (r : str) : Prop := ws_char c = false /\ Ascii.eqb c "/" && negb (is_doc r) <> true.
(** Where white space ends. *)
Definition no_ws (s : str) : Prop := match s with c :: r => starts c r | [] => True end.
Lemma ev_ws at_ w s : blank w -> no_ws s -> ev at_ iws (w ++ s) (Some ([], s)).
Proof.
  intros W N.
  assert (L : ev at_ (snd (smithy_rule I_ws)) (w ++ s) (Some ([], s))).
  { cbn [snd smithy_rule]. induction W as [|c w C W IH]; cbn [app].
    - apply ev_star_nil. destruct s as [|c s]; [destruct at_; ev_compute|]. destruct N as [N1 N2].
      destruct (ascii_dec c "/") as [-> |NC].
      { destruct s as [|a [|b s]]; try (exfalso; apply N2; reflexivity).
        destruct (ascii_dec a "/") as [-> |NA]; [|exfalso; apply N2; cbn; destruct (Ascii.eqb_spec a "/"); [congruence|reflexivity]].
        destruct (ascii_dec b "/") as [-> |NB]; [|exfalso; apply N2; cbn; destruct (Ascii.eqb_spec b "/"); [congruence|reflexivity]].
        apply (ev_run _ 60). destruct at_; reflexivity. }
      apply (ev_run _ 60). clear -N1 NC. destruct at_; all_chars c; try discriminate N1; try reflexivity; congruence.
    - refine (star_cons _ _ _ [] (w ++ s) [] s _ IH). apply (ev_run _ 60). clear -C. destruct at_; all_chars c; try discriminate C; reflexivity. }
  assert (Q := ev_rule at_ I_ws w [] s L). destruct at_; exact Q.
Qed.
Lemma ev_no_ws at_ s : no_ws s -> ev at_ iws s (Some ([], s)).
Proof. intros N. exact (ev_ws at_ [] s (Forall_nil _) N). Qed.
(** The text of a rule that starts with something else than white space. *)
Definition solid (t : str) : Prop := match t with c :: r => starts c r | [] => False end.
Lemma starts_app c r s : starts c r -> starts c (r ++ s).
Proof.
  intros [A B]. split; [exact A|]. destruct (Ascii.eqb c "/"); [|discriminate]. destruct r as [|a [|b r]]; try (exfalso; apply B; reflexivity). exact B.
Qed.
Lemma solid_no_ws t s : solid t -> no_ws (t ++ s).
Proof. destruct t; [intros []|]. apply starts_app. Qed.
Lemma solid_app t s : solid t -> solid (t ++ s).
Proof. destruct t; [intros []|]. apply starts_app. Qed.

(** What may follow a name or a value. *)
Definition follow_char (c : ascii) : bool := existsb (Ascii.eqb c) [" "; ","; ")"; "]"; "}"; ":"; ascii_of_N 10]%char.
Definition follow (s : str) : Prop := match s with c :: _ => follow_char c = true | [] => True end.
Lemma follow_inv s : follow s -> s = [] \/ exists t, s = " "%char :: t \/ s = ","%char :: t \/ s = ")"%char :: t \/ s = "]"%char :: t
  \/ s = "}"%char :: t \/ s = ":"%char :: t \/ s = ascii_of_N 10 :: t.
Proof.
  destruct s as [|c t]; [auto|]. intros F. right. exists t. cbn [follow] in F. all_chars c; try discriminate F; tauto.
Qed.
Ltac follow_cases F := apply follow_inv in F as [->|[? [->|[->|[->|[->|[->|[->| ->]]]]]]]].
(** An id may also be followed by the value of a trait. *)
Definition id_follow (s : str) : Prop := follow s \/ exists t, s = "("%char :: t.
Ltac id_cases F := destruct F as [F|[? ->]]; [follow_cases F|].

(** *** Characters *)
Definition word (c : ascii) : bool := is_alpha c || is_digit c || Ascii.eqb c "_".
Lemma ev_alpha at_ c s : is_alpha c = true -> ev at_ ASCII_ALPHA (c :: s) (Some ([], s)).
Proof. intros H. exists 5. all_chars c; try discriminate H; reflexivity. Qed.
Lemma ev_word at_ c s : word c = true -> ev at_ word_char (c :: s) (Some ([], s)).
Proof. intros H. exists 8. all_chars c; try discriminate H; reflexivity. Qed.
Lemma ev_digit at_ c s : is_digit c = true -> ev at_ ASCII_DIGIT (c :: s) (Some ([], s)).
Proof. intros H. exists 5. all_chars c; try discriminate H; reflexivity. Qed.
(** A loop over single characters. *)
Lemma ev_chars at_ e (P : ascii -> Prop) l rest :
  (forall c s, P c -> ev at_ e (c :: s) (Some ([], s))) -> ev at_ e rest None ->
  Forall P l -> ev at_ (PStar e) (l ++ rest) (Some ([], rest)).
Proof.
  intros H F A. induction A as [|c l C A IH]; cbn [app].
  - apply ev_star_nil. exact F.
  - exact (star_cons _ _ _ _ _ _ _ (H _ _ C) IH).
Qed.

(** *** Identifiers *)
Definition stop (s : str) : Prop := forall at_, ev at_ word_char s None.
Lemma follow_stop s : follow s -> stop s.
Proof. intros F at_. follow_cases F; ev_compute. Qed.
Lemma id_follow_stop s : id_follow s -> stop s.
Proof. intros F at_. id_cases F; ev_compute. Qed.
Lemma dot_stop s : stop ("."%char :: s). Proof. intros at_. ev_compute. Qed.
Lemma hash_stop s : stop ("#"%char :: s). Proof. intros at_. ev_compute. Qed.
Lemma ev_identifier at_ n rest : short_identifier n -> stop rest ->
  ev at_ (icall I_identifier) (n ++ rest) (Some (seen Atomic at_ I_identifier n [], rest)).
Proof.
  intros (c & r & E & A & W) F. apply SelectorGrammarFacts.word_chars in W.
  refine (ev_rule _ I_identifier n [] rest _). cbn [sub_atomic fst snd smithy_rule PSeqs].
  assert (L := ev_chars true _ _ r rest (fun c s H => ev_word true c s H) (F true) W).
  destruct E as [-> | ->]; cbn [app].
  - apply ev_alt1. exact (sq _ _ _ _ _ _ _ _ (ev_alpha true c (r ++ rest) A) L).
  - apply ev_alt2; [apply ev_seq_fail1; ev_compute|].
    refine (sq _ _ _ _ [] (c :: r ++ rest) [] rest _ _); [ev_compute|].
    exact (sq _ _ _ _ _ _ _ _ (ev_alpha true c (r ++ rest) A) L).
Qed.
Lemma short_head n : short_identifier n -> exists c r, n = c :: r /\ (is_alpha c = true \/ c = "_"%char).
Proof. intros (c & r & [-> | ->] & A & _); eexists; eexists; split; eauto. Qed.
Lemma short_solid n : short_identifier n -> solid n.
Proof.
  intros S. destruct (short_head n S) as (c & r & -> & A). cbn [solid]. destruct A as [A| ->]; [|split; [reflexivity|discriminate]].
  all_chars c; try discriminate A; (split; [reflexivity|discriminate]).
Qed.

(** *** Texts *)
Lemma ev_plain_char s c s' : decode1 s = Some (c, s') -> (32 <= c)%N -> c <> 34%N -> c <> 92%N -> (c <= 69631)%N ->
  forall more, ev true (PAlts (plain_chars ++ more)) s (Some ([], s')).
Proof.
  intros D A B C E more. cbn [plain_chars app].
  assert (K : forall l r, ev true (PAlts (PRange 32 33 :: l :: r)) s = ev true (PAlt (PRange 32 33) (PAlts (l :: r))) s) by reflexivity.
  cbn [PAlts].
  destruct (N.leb_spec c 33).
  - apply ev_alt1. apply (ev_range _ _ _ _ _ c); [exact D|lia].
  - apply ev_alt2; [apply ev_range_fail; intros c0 s0 E0; rewrite D in E0; injection E0 as <- <-; lia|].
    destruct (N.leb_spec c 91).
    + apply ev_alt1. apply (ev_range _ _ _ _ _ c); [exact D|lia].
    + apply ev_alt2; [apply ev_range_fail; intros c0 s0 E0; rewrite D in E0; injection E0 as <- <-; lia|].
      destruct more; [|apply ev_alt1]; apply (ev_range _ _ _ _ _ c); (exact D || lia).
Qed.
Lemma ev_quoted s rest : plain_text s ->
  ev false (icall I_quoted_text) (quoted s ++ rest) (Some ([Pair I_quoted_text (quoted s) [Pair I_quoted_chars s []]], rest)).
Proof.
  intros T. refine (ev_normal I_quoted_text _ _ rest eq_refl _). cbn [snd smithy_rule PSeqs].
  assert (L : forall t, plain_text t -> ev true (PStar (PAlts (plain_chars ++ [icall I_escaped_char; icall I_preserved_double])))
                 (t ++ dquote :: rest) (Some ([], dquote :: rest))).
  { induction 1 as [|t c t' D A B C E T' IH]; [apply ev_star_nil; ev_compute|].
    exact (star_cons _ _ _ _ _ _ _ (ev_plain_char _ _ _ (SelectorGrammarFacts.decode1_app _ _ _ _ D) A B C E _) IH). }
  unfold quoted. cbn [app]. rewrite <- app_assoc. cbn [app].
  refine (sq _ _ _ _ [] (s ++ dquote :: rest) [Pair I_quoted_chars s []] rest _ _); [ev_compute|].
  refine (sq _ _ _ _ [Pair I_quoted_chars s []] (dquote :: rest) [] rest _ _); [|ev_compute].
  exact (ev_rule false I_quoted_chars s [] (dquote :: rest) (L s T)).
Qed.
Lemma plain_head s c r : plain_text s -> s = c :: r -> c <> dquote.
Proof.
  intros T E ->. subst s. inversion T as [|s0 x s' D A B C F T']; subst. cbn in D. injection D as <- <-. apply B. reflexivity.
Qed.
Lemma ev_no_block s rest : plain_text s -> follow rest -> ev false (icall I_text_block) (quoted s ++ rest) None.
Proof.
  intros T F. unfold quoted. cbn [app]. rewrite <- app_assoc. cbn [app]. destruct s as [|c r].
  - cbn [app]. follow_cases F; ev_compute.
  - assert (N := plain_head _ _ _ T eq_refl). cbn [app]. clear T. apply (ev_run _ 60).
    all_chars c; try reflexivity. exfalso. apply N. reflexivity.
Qed.

(** *** Numbers *)
Lemma ev_whole n : whole n -> exists ps, forall rest, (forall at_, ev at_ ASCII_DIGIT rest None) ->
  ev false (icall I_int) (n ++ rest) (Some (ps, rest)).
Proof.
  intros W. destruct W as [-> | (c & r & -> & C & D)].
  - eexists. intros rest F. refine (ev_normal I_int _ _ rest eq_refl _). cbn [snd smithy_rule]. apply ev_alt1.
    exact (ev_token I_zero (lit "0") rest eq_refl).
  - exists [Pair I_int (c :: r) []]. intros rest F. refine (ev_normal I_int _ _ rest eq_refl _). cbn [snd smithy_rule].
    apply ev_alt2; [exists 8; all_chars c; try discriminate C; reflexivity|].
    refine (sq _ _ _ _ [] (r ++ rest) [] rest _ _); [exists 8; all_chars c; try discriminate C; reflexivity|].
    exact (ev_chars false _ _ r rest (fun c s H => ev_digit false c s H) (F false) D).
Qed.
Lemma ev_sign sign n : sign = [] \/ sign = lit "-" -> whole n -> exists ps, forall rest,
  ev false (POpt (icall I_minus)) (sign ++ n ++ rest) (Some (ps, n ++ rest)).
Proof.
  intros [-> | ->] W; [exists []|eexists]; intros rest; [|apply ev_opt1; exact (ev_token I_minus (lit "-") _ eq_refl)].
  apply ev_opt2. destruct W as [-> | (c & r & -> & C & D)]; [ev_compute|]. exists 8; all_chars c; try discriminate C; reflexivity.
Qed.
Lemma follow_no_digit rest : follow rest -> forall at_, ev at_ ASCII_DIGIT rest None.
Proof. intros F at_. follow_cases F; ev_compute. Qed.
Lemma ev_integer sign n : sign = [] \/ sign = lit "-" -> whole n -> exists ps, forall rest, follow rest ->
  ev false (icall I_number) ((sign ++ n) ++ rest) (Some ([Pair I_number (sign ++ n) ps], rest)).
Proof.
  intros S W. destruct (ev_sign sign n S W) as [p1 P1]. destruct (ev_whole n W) as [p2 P2].
  exists (p1 ++ p2 ++ []). intros rest F. refine (ev_normal I_number _ _ rest eq_refl _). cbn [snd smithy_rule PSeqs].
  rewrite <- app_assoc. refine (sq _ _ _ _ _ (n ++ rest) _ rest (P1 rest) _).
  refine (sq _ _ _ _ _ rest _ rest (P2 rest (follow_no_digit _ F)) _). follow_cases F; ev_compute.
Qed.
Lemma ev_decimal t : decimal t -> exists ps, forall rest, follow rest ->
  ev false (icall I_number) (t ++ rest) (Some ([Pair I_number t ps], rest)).
Proof.
  intros (sign & n & frac & -> & S & W & NE & D).
  destruct (ev_sign sign n S W) as [p1 P1]. destruct (ev_whole n W) as [p2 P2].
  exists (p1 ++ p2 ++ [Pair I_frac ("."%char :: frac) [Pair I_decimal_point (lit ".") []]] ++ []). intros rest F.
  refine (ev_normal I_number _ _ rest eq_refl _). cbn [snd smithy_rule PSeqs].
  rewrite <- !app_assoc. refine (sq _ _ _ _ _ (n ++ _) _ rest (P1 _) _).
  refine (sq _ _ _ _ _ (("."%char :: frac) ++ rest) _ rest (P2 _ _) _); [intros at_; ev_compute|].
  refine (sq _ _ _ _ _ rest _ rest _ _); [|follow_cases F; ev_compute].
  apply ev_opt1. refine (ev_normal I_frac _ _ rest eq_refl _). cbn [snd smithy_rule app].
  refine (sq _ _ _ _ _ (frac ++ rest) [] rest (ev_token I_decimal_point (lit ".") _ eq_refl) _).
  destruct frac as [|c frac]; [congruence|]. inversion D as [|c0 f0 C D']; subst.
  exact (sq _ _ _ _ _ _ _ _ (ev_digit false c (frac ++ rest) C)
           (ev_chars false _ _ frac rest (fun c s H => ev_digit false c s H) (follow_no_digit _ F false) D')).
Qed.

(** *** Shape ids *)
Notation dotted := SelectorGrammarFacts.dotted.
Lemma ev_namespace at_ ids rest : ids <> [] -> Forall short_identifier ids -> stop rest -> ev true (itok ".") rest None ->
  ev at_ (icall I_namespace) (join ["."%char] ids ++ rest) (Some (seen Atomic at_ I_namespace (join ["."%char] ids) [], rest)).
Proof.
  intros NE F S D. refine (ev_rule _ I_namespace _ [] rest _). cbn [sub_atomic fst snd smithy_rule].
  destruct ids as [|x ids]; [congruence|]. clear NE. inversion F as [|x0 l0 X F']; subst. clear F.
  assert (N : forall l, stop (dotted l ++ rest)) by (intros [|y l]; [exact S|apply dot_stop]).
  assert (K : forall l, Forall short_identifier l ->
    ev true (PStar (PSeq (itok ".") (icall I_identifier))) (dotted l ++ rest) (Some ([], rest))).
  { induction 1 as [|y l Y L IH]; [apply ev_star_nil, ev_seq_fail1, D|].
    assert (Y1 : ev true (PSeq (itok ".") (icall I_identifier)) (dotted (y :: l) ++ rest) (Some ([], dotted l ++ rest))).
    { unfold dotted. cbn [map concat app]. fold (dotted l). rewrite <- app_assoc.
      refine (sq _ _ _ _ [] (y ++ dotted l ++ rest) [] _ _ _); [ev_compute|].
      exact (ev_identifier true y _ Y (N l)). }
    exact (star_cons _ _ _ _ _ _ _ Y1 IH). }
  rewrite SelectorGrammarFacts.join_dotted, <- app_assoc.
  exact (sq _ _ _ _ _ _ _ _ (ev_identifier true x _ X (N ids)) (K _ F')).
Qed.
Lemma ev_absolute at_ ids n rest : ids <> [] -> Forall short_identifier ids -> short_identifier n -> stop rest ->
  exists ps, ev at_ (icall I_absolute_root_shape_id) ((join ["."%char] ids ++ "#"%char :: n) ++ rest)
      (Some (seen Normal at_ I_absolute_root_shape_id (join ["."%char] ids ++ "#"%char :: n) ps, rest)).
Proof.
  intros NE I S F. eexists. refine (ev_rule at_ I_absolute_root_shape_id _ _ rest _). cbn [sub_atomic fst snd smithy_rule PSeqs].
  rewrite <- app_assoc. cbn [app].
  refine (sq _ _ _ _ _ ("#"%char :: n ++ rest) _ rest _ _).
  - refine (ev_namespace at_ ids _ NE I (hash_stop _) _). ev_compute.
  - refine (sq _ _ _ _ _ (n ++ rest) _ rest _ _); [ev_compute|]. exact (ev_identifier at_ n rest S F).
Qed.
Lemma ev_not_absolute at_ n rest : short_identifier n -> id_follow rest -> ev at_ (icall I_absolute_root_shape_id) (n ++ rest) None.
Proof.
  intros S F. apply ev_rule_fail. cbn [sub_atomic fst snd smithy_rule PSeqs].
  refine (sq_fail _ _ _ _ _ rest (ev_namespace at_ [n] rest _ _ (id_follow_stop _ F) _) _);
    [discriminate|auto|id_cases F; ev_compute|id_cases F; ev_compute].
Qed.
Lemma ev_id_short n rest : short_identifier n -> id_follow rest ->
  ev false (icall I_shape_id) (n ++ rest) (Some ([Pair I_shape_id n []], rest)).
Proof.
  intros S F. refine (ev_rule false I_shape_id n [] rest _). cbn [sub_atomic fst snd smithy_rule].
  refine (sq _ _ _ _ [] rest [] rest _ _); [|id_cases F; ev_compute].
  refine (ev_rule true I_root_shape_id n [] rest _). cbn [sub_atomic fst snd smithy_rule].
  apply ev_alt2; [apply ev_not_absolute; assumption|]. exact (ev_identifier true n rest S (id_follow_stop _ F)).
Qed.
Lemma ev_id_full ids n rest : ids <> [] -> Forall short_identifier ids -> short_identifier n -> id_follow rest ->
  ev false (icall I_shape_id) ((join ["."%char] ids ++ "#"%char :: n) ++ rest)
    (Some ([Pair I_shape_id (join ["."%char] ids ++ "#"%char :: n) []], rest)).
Proof.
  intros NE I S F. refine (ev_rule false I_shape_id _ [] rest _). cbn [sub_atomic fst snd smithy_rule].
  refine (sq _ _ _ _ [] rest [] rest _ _); [|id_cases F; ev_compute].
  refine (ev_rule true I_root_shape_id _ [] rest _). cbn [sub_atomic fst snd smithy_rule].
  destruct (ev_absolute true ids n rest NE I S (id_follow_stop _ F)) as [ps A]. apply ev_alt1. exact A.
Qed.

(** *** Loops *)
Lemma blank_follow w r : blank w -> w <> [] -> follow (w ++ r).
Proof.
  intros B N. destruct w as [|c w]; [congruence|]. inversion B as [|c0 w0 C W]; subst. cbn [app follow].
  clear -C. all_chars c; try discriminate C; reflexivity.
Qed.
Notation texts := (list (str * list (pair irule))).
(** [t] is the text of one match of [e], with the pairs [ps]. *)
Definition item (e : pexp irule) (x : str * list (pair irule)) : Prop :=
  solid (fst x) /\ forall r, follow r -> ev false e (fst x ++ r) (Some (snd x, r)).
(** [(e ~ ws)*] on items with separators, up to [rest]. *)
Lemma star_items e sep (l : texts) tail rest : blank sep -> sep <> [] -> Forall (item e) l ->
  blank tail -> (l = [] -> tail = []) -> no_ws rest -> follow (tail ++ rest) -> ev false e rest None ->
  ev false (PStar (PSeq e iws)) (join sep (map fst l) ++ tail ++ rest) (Some (concat (map snd l), rest)).
Proof.
  intros BS NS A BT LT NW F N. induction A as [|[t ps] l [SO T] A IH].
  - rewrite (LT eq_refl). apply ev_star_nil, ev_seq_fail1, N.
  - cbn [map fst snd concat] in *. destruct l as [|x l].
    + cbn [join map concat].
      refine (star_cons _ _ _ ps rest [] rest (sq_end _ _ _ _ _ _ _ (T _ F) (ev_ws _ tail rest BT NW)) _).
      apply ev_star_nil, ev_seq_fail1, N.
    + change (join sep (t :: map fst (x :: l))) with (t ++ sep ++ join sep (map fst (x :: l))). rewrite <- !app_assoc.
      refine (star_cons _ _ _ ps (join sep (map fst (x :: l)) ++ tail ++ rest) (concat (map snd (x :: l))) rest
               (sq_end _ _ _ _ _ _ _ (T _ (blank_follow _ _ BS NS)) (ev_ws _ sep _ BS _)) (IH _)); [|discriminate].
      inversion A as [|x0 l0 [SX _] A']; subst. cbn [map join]. destruct (map fst l); [|rewrite <- !app_assoc]; apply solid_no_ws, SX.
Qed.
(** [(ws ~ e)*] on items with the separator in front. *)
Definition prefixed (sep : str) (l : list str) : str := concat (map (fun t => sep ++ t) l).
Lemma star_ws_items e sep (l : texts) rest : blank sep -> sep <> [] -> Forall (item e) l -> follow rest ->
  ev false (PSeq iws e) rest None ->
  ev false (PStar (PSeq iws e)) (prefixed sep (map fst l) ++ rest) (Some (concat (map snd l), rest)).
Proof.
  intros BS NS A F N. induction A as [|[t ps] l [SO T] A IH]; [apply ev_star_nil, N|].
  unfold prefixed. cbn [map fst snd concat] in *. fold (prefixed sep (map fst l)). rewrite <- !app_assoc.
  refine (star_cons _ _ _ ps (prefixed sep (map fst l) ++ rest) _ rest (sq _ _ _ _ [] _ _ _ (ev_ws _ sep _ BS _) (T _ _)) IH).
  - apply solid_no_ws, SO.
  - destruct l as [|x l]; [exact F|]. unfold prefixed. cbn [map concat]. rewrite <- !app_assoc. apply blank_follow; assumption.
Qed.
