(** The grammar of selectors: it always terminates; what its rules match. *)
From Verif.Model Require Import SelectorGrammar Values.
From Verif.Spec Require Import SelectorSpec.
From Verif.Proofs Require Import BaseFacts PegFacts.

(** ** Termination *)
Definition s_nullable (r : srule) : bool := match r with S_EOI => true | _ => false end.
Definition s_rank (r : srule) : nat :=
  match r with
  | S_number | S_absolute_root_shape_id | S_comparator | S_selector_expression => 2
  | S_root_shape_id | S_attr_comparison | S_selector => 3
  | S_value | S_input | S_function_args => 4
  | S_path_segment | S_scoped_value | S_attr_values => 5
  | S_path | S_scoped_values | S_scoped_assertion => 6
  | S_scoped_assertions => 7
  | S_int | S_fraction | S_exp | S_text | S_namespace | S_string_comparator | S_numeric_comparator
  | S_projection_comparator | S_key | S_directed_relationships | S_shape_types => 1
  | _ => 0
  end.
Lemma s_rules_ok : forall q, let (k, body) := g_rule selector_grammar q in
  (nul s_nullable body = true -> s_nullable q = true)
  /\ ranked s_nullable s_rank 8 (s_rank q) body = true /\ size body < 100.
Proof.
  assert (H : forall q, (let (k, body) := g_rule selector_grammar q in
    implb (nul s_nullable body) (s_nullable q) && ranked s_nullable s_rank 8 (s_rank q) body && (size body <? 100)%nat) = true)
    by (intros []; reflexivity).
  intros q. specialize (H q). destruct (g_rule selector_grammar q) as [k body].
  apply andb_true_iff in H as [H Z]. apply andb_true_iff in H as [N R]. apply Nat.ltb_lt in Z.
  split; [|split; assumption]. intros E. rewrite E in N. exact N.
Qed.
Lemma selector_total at_ q s : s_rank q < 8 -> forall f, S (length s) * 4000 <= f -> exists r, run selector_grammar f at_ (PCall q) s = Some r.
Proof.
  intros L f F. refine (run_total selector_grammar s_nullable s_rank 8 100 s_rules_ok f at_ (PCall q) s 8 _ _ _ _).
  - cbn. destruct q; reflexivity.
  - lia.
  - cbn. lia.
  - unfold cost. cbn [size]. lia.
Qed.

(** ** Matching *)
Notation ev := (evals selector_grammar).
Ltac ev_compute := apply (ev_run _ 60); reflexivity.
Lemma ev_call_any {R} (g : grammar R) at_ q k body s s' ps : g_rule g q = (k, body) ->
  evals g (sub_atomic k at_) body s (Some (ps, s')) -> evals g at_ (PCall q) s (Some (seen k at_ q (taken s s') ps, s')).
Proof. intros E [f F]. exists (S f). cbn [Peg.run]. rewrite E. unfold sub_atomic in F. rewrite F. reflexivity. Qed.

Lemma ev_rule at_ q x ps s : ev (sub_atomic (fst (selector_rule q)) at_) (snd (selector_rule q)) (x ++ s) (Some (ps, s)) ->
  ev at_ (call q) (x ++ s) (Some (seen (fst (selector_rule q)) at_ q x ps, s)).
Proof. intros H. refine (ev_call _ at_ q _ (snd (selector_rule q)) x ps s _ H). cbn. destruct (selector_rule q); reflexivity. Qed.
Lemma ev_rule_any at_ q s s' ps : ev (sub_atomic (fst (selector_rule q)) at_) (snd (selector_rule q)) s (Some (ps, s')) ->
  ev at_ (call q) s (Some (seen (fst (selector_rule q)) at_ q (taken s s') ps, s')).
Proof. intros H. refine (ev_call_any _ at_ q _ (snd (selector_rule q)) s s' ps _ H). cbn. destruct (selector_rule q); reflexivity. Qed.

(** *** Characters *)
Definition word (c : ascii) : bool := is_alpha c || is_digit c || Ascii.eqb c "_".
Ltac all_chars c := destruct c as [[] [] [] [] [] [] [] []].
(** What may follow an identifier or a value. *)
Definition follow_char (c : ascii) : bool := existsb (Ascii.eqb c) (lit " ],|})(:").
Definition follow (s : str) : Prop := match s with c :: _ => follow_char c = true | [] => True end.
(** Case analysis on what follows. *)
Lemma follow_inv s : follow s -> s = [] \/ exists t, s = " "%char :: t \/ s = "]"%char :: t \/ s = ","%char :: t \/ s = "|"%char :: t
  \/ s = "}"%char :: t \/ s = ")"%char :: t \/ s = "("%char :: t \/ s = ":"%char :: t.
Proof.
  destruct s as [|c t]; [auto|]. intros F. right. exists t. cbn in F. all_chars c; try discriminate F; tauto.
Qed.
Ltac follow_cases F := apply follow_inv in F as [->|[? [->|[->|[->|[->|[->|[->|[->| ->]]]]]]]]].

Lemma ev_alpha at_ c s : is_alpha c = true -> ev at_ ASCII_ALPHA (c :: s) (Some ([], s)).
Proof. intros H. exists 5. all_chars c; try discriminate H; reflexivity. Qed.
Lemma ev_word at_ c s : word c = true -> ev at_ ident_char (c :: s) (Some ([], s)).
Proof. intros H. exists 8. all_chars c; try discriminate H; reflexivity. Qed.
Lemma ev_digit at_ c s : is_digit c = true -> ev at_ ASCII_DIGIT (c :: s) (Some ([], s)).
Proof. intros H. exists 5. all_chars c; try discriminate H; reflexivity. Qed.
(** A loop over single characters. *)
Lemma ev_chars e (P : ascii -> Prop) l rest :
  (forall c s, P c -> ev true e (c :: s) (Some ([], s))) -> ev true e rest None ->
  Forall P l -> ev true (PStar e) (l ++ rest) (Some ([], rest)).
Proof.
  intros H F A. induction A as [|c l C A IH]; cbn.
  - apply ev_star_nil. exact F.
  - exact (ev_star_cons _ _ _ _ _ _ _ _ (H _ _ C) (ev_more_atomic _ _ _ _ IH)).
Qed.

(** *** Identifiers *)
Lemma word_chars rest : Forall (fun x => is_alpha x = true \/ is_digit x = true \/ x = "_"%char) rest ->
  Forall (fun c => word c = true) rest.
Proof.
  intros F. apply (Forall_impl _ (P := fun x => is_alpha x = true \/ is_digit x = true \/ x = "_"%char)); [|exact F].
  intros a [H|[H| ->]]; unfold word; rewrite ?H, ?orb_true_r; reflexivity.
Qed.
(** Where no word continues. *)
Definition stop (s : str) : Prop := ev true ident_char s None.
Lemma follow_stop s : follow s -> stop s.
Proof. intros F. follow_cases F; ev_compute. Qed.
Lemma dot_stop s : stop ("."%char :: s). Proof. ev_compute. Qed.
Lemma hash_stop s : stop ("#"%char :: s). Proof. ev_compute. Qed.
Lemma ev_identifier at_ n rest : short_identifier n -> stop rest ->
  ev at_ (call S_identifier) (n ++ rest) (Some (seen Atomic at_ S_identifier n [], rest)).
Proof.
  intros (c & r & E & A & W) F. apply word_chars in W.
  refine (ev_rule _ S_identifier n [] rest _). cbn [sub_atomic fst snd selector_rule PSeqs].
  assert (L := ev_chars _ _ r rest (fun c s H => ev_word true c s H) F W).
  destruct E as [-> | ->]; cbn [app].
  - apply ev_alt1. exact (ev_seq _ _ _ _ _ _ _ _ _ (ev_alpha true c (r ++ rest) A) L).
  - apply ev_alt2; [apply ev_seq_fail1; ev_compute|].
    refine (ev_seq _ _ _ _ _ [] (c :: r ++ rest) [] rest _ _); [ev_compute|].
    exact (ev_seq _ _ _ _ _ _ _ _ _ (ev_alpha true c (r ++ rest) A) L).
Qed.
(** An identifier starts with none of the other tokens. *)
Lemma short_head n : short_identifier n -> exists c r, n = c :: r /\ (is_alpha c = true \/ c = "_"%char).
Proof. intros (c & r & [-> | ->] & A & _); eexists; eexists; split; eauto. Qed.

(** *** Texts *)
Lemma decode1_app s rest c s' : decode1 s = Some (c, s') -> decode1 (s ++ rest) = Some (c, s' ++ rest).
Proof.
  destruct s as [|a s]; [discriminate|]. cbn [decode1 app]. destruct (ch_N a <? 128)%N; [intros [= <- <-]; reflexivity|].
  destruct (ch_N a <? 192)%N; [discriminate|]. unfold at_least.
  destruct (ch_N a <? 224)%N; [destruct s as [|b s]; [discriminate|]; cbn [app]; destruct (_ <=? _)%N; [intros [= <- <-]; reflexivity|discriminate]|].
  destruct (ch_N a <? 240)%N.
  - destruct s as [|b [|c0 s]]; try discriminate; cbn [app]; destruct (_ <=? _)%N; [intros [= <- <-]; reflexivity|discriminate].
  - destruct s as [|b [|c0 [|d s]]]; try discriminate; cbn [app]; destruct (_ <=? _)%N; [intros [= <- <-]; reflexivity|discriminate].
Qed.
Lemma ev_quoted_char s c s' : decode1 s = Some (c, s') -> (32 <= c)%N -> c <> 34%N -> c <> 92%N -> (c <= 1114111)%N ->
  ev true (call S_double_quoted_char) s (Some ([], s')).
Proof.
  intros D A B C E. refine (ev_rule_any true S_double_quoted_char s s' [] _). cbn [sub_atomic fst snd selector_rule PSeqs PAlts].
  destruct (N.leb_spec c 33).
  - apply ev_alt1. apply (ev_range _ _ _ _ _ c); [exact D|lia].
  - apply ev_alt2; [apply ev_range_fail; intros c0 s0 E0; rewrite D in E0; injection E0 as <- <-; lia|].
    destruct (N.leb_spec c 91).
    + apply ev_alt1. apply (ev_range _ _ _ _ _ c); [exact D|lia].
    + apply ev_alt2; [apply ev_range_fail; intros c0 s0 E0; rewrite D in E0; injection E0 as <- <-; lia|].
      apply (ev_range _ _ _ _ _ c); [exact D|lia].
Qed.
Lemma ev_text s rest : s <> [] -> quotable 34 s ->
  ev false (call S_text) ([dquote] ++ s ++ [dquote] ++ rest)
    (Some ([Pair S_text ([dquote] ++ s ++ [dquote]) [Pair S_double_quoted_text ([dquote] ++ s ++ [dquote]) []]], rest)).
Proof.
  intros NE Q. replace ([dquote] ++ s ++ [dquote] ++ rest) with (([dquote] ++ s ++ [dquote]) ++ rest) by (rewrite <- !app_assoc; reflexivity).
  refine (ev_rule _ S_text _ _ rest _). cbn [sub_atomic fst snd selector_rule PSeqs].
  apply ev_alt2; [ev_compute|].
  refine (ev_rule _ S_double_quoted_text _ [] rest _). cbn [sub_atomic fst snd selector_rule PSeqs].
  assert (L : forall t, quotable 34 t -> ev true (PStar (call S_double_quoted_char)) (t ++ [dquote] ++ rest) (Some ([], [dquote] ++ rest))).
  { intros t T. induction T as [|t c t' D A B C E T IH]; [apply ev_star_nil; ev_compute|].
    exact (ev_star_cons _ _ _ _ _ _ _ _ (ev_quoted_char _ _ _ (decode1_app _ _ _ _ D) A B C E) (ev_more_atomic _ _ _ _ IH)). }
  rewrite <- !app_assoc. cbn [app]. refine (ev_seq _ _ _ _ _ [] (s ++ dquote :: rest) [] rest _ _); [ev_compute|].
  refine (ev_seq _ _ _ _ _ [] (dquote :: rest) [] rest _ _); [|ev_compute]. cbn [skip].
  inversion Q as [|t c t' D A B C E T]; subst; [congruence|].
  exact (ev_seq _ _ _ _ _ _ _ _ _ (ev_quoted_char _ _ _ (decode1_app _ _ _ _ D) A B C E) (L _ T)).
Qed.

(** *** Numbers *)
Lemma ev_whole n rest : whole n -> ev true ASCII_DIGIT rest None -> ev true (call S_int) (n ++ rest) (Some ([], rest)).
Proof.
  intros W F. refine (ev_rule _ S_int n [] rest _). cbn [sub_atomic fst snd selector_rule PSeqs].
  destruct W as [-> | (c & r & -> & C & D)].
  - apply ev_alt1. ev_compute.
  - apply ev_alt2; [exists 8; all_chars c; try discriminate C; reflexivity|].
    refine (ev_seq _ _ _ _ _ [] (r ++ rest) [] rest _ _); [exists 8; all_chars c; try discriminate C; reflexivity|].
    exact (ev_chars _ _ r rest (fun c s H => ev_digit true c s H) F D).
Qed.
Lemma ev_sign sign n rest : sign = [] \/ sign = lit "-" -> whole n ->
  ev true (POpt (call S_minus)) (sign ++ n ++ rest) (Some ([], n ++ rest)).
Proof.
  intros [-> | ->] W; [|apply ev_opt1; ev_compute].
  apply ev_opt2. destruct W as [-> | (c & r & -> & C & D)]; [ev_compute|]. exists 8; all_chars c; try discriminate C; reflexivity.
Qed.
Lemma ev_integer sign n rest : sign = [] \/ sign = lit "-" -> whole n -> follow rest ->
  ev false (call S_number) ((sign ++ n) ++ rest) (Some ([Pair S_number (sign ++ n) []], rest)).
Proof.
  intros S W F. refine (ev_rule _ S_number _ [] rest _). cbn [sub_atomic fst snd selector_rule PSeqs].
  rewrite <- app_assoc. refine (ev_seq _ _ _ _ _ [] (n ++ rest) [] rest (ev_sign _ _ _ S W) _). cbn [skip].
  refine (ev_seq _ _ _ _ _ [] rest [] rest (ev_whole _ _ W _) _); [follow_cases F; ev_compute|]. cbn [skip].
  follow_cases F; ev_compute.
Qed.
Lemma ev_decimal t rest : decimal t -> follow rest ->
  ev false (call S_number) (t ++ rest) (Some ([Pair S_number t []], rest)).
Proof.
  intros (sign & n & frac & -> & S & W & NE & D) F.
  refine (ev_rule _ S_number _ [] rest _). cbn [sub_atomic fst snd selector_rule PSeqs].
  rewrite <- !app_assoc. refine (ev_seq _ _ _ _ _ [] (n ++ _) [] rest (ev_sign _ _ _ S W) _). cbn [skip].
  refine (ev_seq _ _ _ _ _ [] _ [] rest (ev_whole _ (("."%char :: frac) ++ rest) W _) _); [ev_compute|]. cbn [skip].
  refine (ev_seq _ _ _ _ _ [] rest [] rest _ _); [|follow_cases F; ev_compute].
  apply ev_opt1. refine (ev_rule _ S_fraction _ [] rest _). cbn [sub_atomic fst snd selector_rule PSeqs app].
  refine (ev_seq _ _ _ _ _ [] (frac ++ rest) [] rest _ _); [ev_compute|]. cbn [skip].
  assert (FD : ev true ASCII_DIGIT rest None) by (follow_cases F; ev_compute).
  destruct frac as [|c frac]; [congruence|]. inversion D as [|c0 f0 C D']; subst.
  exact (ev_seq _ _ _ _ _ _ _ _ _ (ev_digit true c (frac ++ rest) C) (ev_chars _ _ frac rest (fun c s H => ev_digit true c s H) FD D')).
Qed.

(** *** Shape ids *)
Definition dotted (l : list str) : str := concat (map (fun y => "."%char :: y) l).
Lemma join_dotted l : forall z, join ["."%char] (z :: l) = z ++ dotted l.
Proof.
  induction l as [|w l IH]; intros z; [symmetry; apply app_nil_r|].
  change (join ["."%char] (z :: w :: l)) with (z ++ ["."%char] ++ join ["."%char] (w :: l)). rewrite IH. reflexivity.
Qed.
Lemma ev_namespace ids rest : ids <> [] -> Forall short_identifier ids -> stop rest -> ev true (tok ".") rest None ->
  ev true (call S_namespace) (join ["."%char] ids ++ rest) (Some ([], rest)).
Proof.
  intros NE F S D. refine (ev_rule _ S_namespace _ [] rest _). cbn [sub_atomic fst snd selector_rule PSeqs].
  destruct ids as [|x ids]; [congruence|]. clear NE. inversion F as [|x0 l0 X F']; subst. clear F.
  assert (N : forall l, stop (dotted l ++ rest)) by (intros [|y l]; [exact S|apply dot_stop]).
  assert (K : forall l, Forall short_identifier l ->
    ev true (PStar (PSeq (tok ".") (call S_identifier))) (dotted l ++ rest) (Some ([], rest))).
  { induction 1 as [|y l Y L IH]; [apply ev_star_nil, ev_seq_fail1, D|].
    assert (Y1 : ev true (PSeq (tok ".") (call S_identifier)) (dotted (y :: l) ++ rest) (Some ([], dotted l ++ rest))).
    { unfold dotted. cbn [map concat app]. fold (dotted l). rewrite <- app_assoc.
      refine (ev_seq _ _ _ _ _ [] (y ++ dotted l ++ rest) [] _ _ _); [ev_compute|].
      exact (ev_identifier true y _ Y (N l)). }
    exact (ev_star_cons _ _ _ _ _ _ _ _ Y1 (ev_more_atomic _ _ _ _ IH)). }
  rewrite join_dotted, <- app_assoc.
  exact (ev_seq _ _ _ _ _ _ _ _ _ (ev_identifier true x _ X (N ids)) (K _ F')).
Qed.
