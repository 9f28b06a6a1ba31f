(** C31: the visitor (atelier-core/src/model/visitor.rs); C32: text of enumerations. *)
From Verif.Model Require Import Visitor Selector Json.
From Verif.Spec Require Import VisitorSpec Witness.
From Verif.Proofs Require Import BaseFacts VisitorFacts.

(* ---------------------------------------------------------------- C31 *)
(** Whatever the visitor does and however it changes its state, it receives exactly the calls of
    [expected_calls], in order, up to and including the first one that returns an error, and
    [walk_model] returns that error. The first component of the state records every call made. *)
Theorem C31_calls_up_to_first_error :
  forall (S E : Type) (v : visitor S E) (m : model) (s : S),
    walk_model m (recording v) ([], s)
    = let '(seen, s', r) := play v (expected_calls (has_members v) m) s in ((seen, s'), r).
Proof.
  intros S E v m s. rewrite walk_model_run.
  pose proof (play_run (recording v) (expected_calls (has_members v) m) ([], s)) as A.
  pose proof (play_recording v (expected_calls (has_members v) m) [] s) as B.
  change (has_members (recording v)) with (has_members v).
  destruct (play (recording v) (expected_calls (has_members v) m) ([], s)) as [[x ls] r].
  destruct (play v (expected_calls (has_members v) m) s) as [[seen s'] r']. destruct B as [-> ->]. rewrite A. reflexivity.
Qed.
Print Assumptions C31_calls_up_to_first_error.

(** If no call returns an error, every expected call is made. *)
Theorem C31_all_calls :
  forall (S E : Type) (v : visitor S E) (m : model) (s : S),
    (forall c s, snd (answer v c s) = None) ->
    fst (fst (walk_model m (recording v) ([], s))) = expected_calls (has_members v) m
    /\ snd (walk_model m (recording v) ([], s)) = None.
Proof.
  intros S E v m s H. rewrite C31_calls_up_to_first_error. revert s.
  induction (expected_calls (has_members v) m) as [|c l IH]; intros s; cbn [play]; [split; reflexivity|].
  destruct (answer v c s) as [s1 o] eqn:A. assert (o = None) as -> by (rewrite <- (H c s), A; reflexivity).
  specialize (IH s1). destruct (play v l s1) as [[seen s2] r]. cbn in *. destruct IH as [-> ->]. split; reflexivity.
Qed.
Print Assumptions C31_all_calls.

(** A failed walk saw a prefix of the expected calls ending with the refused one. *)
Theorem C31_first_error :
  forall (S E : Type) (v : visitor S E) (m : model) (s : S) (e : E),
    snd (walk_model m (recording v) ([], s)) = Some e ->
    exists before c after,
      expected_calls (has_members v) m = before ++ c :: after
      /\ fst (fst (walk_model m (recording v) ([], s))) = before ++ [c]
      /\ exists s1, snd (play v before s) = None /\ snd (fst (play v before s)) = s1 /\ snd (answer v c s1) = Some e.
Proof.
  intros S E v m s e. rewrite C31_calls_up_to_first_error. revert s.
  induction (expected_calls (has_members v) m) as [|c l IH]; intros s; cbn [play]; [discriminate|].
  destruct (answer v c s) as [s1 [e'|]] eqn:A.
  - cbn [fst snd]. intros [= ->]. exists [], c, l. split; [reflexivity|]. split; [reflexivity|].
    exists s. cbn. rewrite A. auto.
  - specialize (IH s1). destruct (play v l s1) as [[seen s2] r]. cbn [fst snd] in *. intros R.
    destruct (IH R) as (b & c' & a & -> & -> & s3 & B1 & B2 & B3). exists (c :: b), c', a.
    split; [reflexivity|]. split; [reflexivity|]. exists s3. cbn [play]. rewrite A.
    destruct (play v b s1) as [[x y] z]. cbn [fst snd] in *. auto.
Qed.
Print Assumptions C31_first_error.

(** Among the expected calls there is exactly one per shape, of the method of its kind and with its
    own contents, and exactly one per metadata entry. *)
Theorem C31_one_call_each :
  forall (b : bool) (m : model),
    filter is_shape_call (expected_calls b m) = map (fun e => shape_call (snd e)) (m_shapes m)
    /\ filter is_metadata_call (expected_calls b m) = map (fun kv => CMetadata (fst kv) (snd kv)) (m_metadata m).
Proof. intros b m. split; [apply filter_shape_expected|apply filter_metadata_expected]. Qed.
Print Assumptions C31_one_call_each.

(** A visitor that refuses operations, on motd. *)
Example C31_ex :
  let v := Visitor (fun c (n : nat) => (n + 1, match c with COperation _ _ _ => Some 42 | _ => None end)) true in
  snd (walk_model motd (recording v) ([], 0)) = Some 42
  /\ length (fst (fst (walk_model motd (recording v) ([], 0)))) = 11
  /\ length (expected_calls true motd) = 19.
Proof. repeat split. Qed.

(* ---------------------------------------------------------------- C32 *)
Lemma match_str_In {A} arms s (a : A) : match_str arms s = Some a -> exists k, In (k, a) arms /\ lit k = s.
Proof.
  induction arms as [|[k b] arms IH]; cbn; [discriminate|]. destruct (str_eqb (lit k) s) eqn:E.
  - intros [= ->]. exists k. split; [auto|]. apply str_eqb_eq. exact E.
  - intros H. destruct (IH H) as (k' & I & L). exists k'. auto.
Qed.

(** Reading the text of a value gives it back; a string that is read is the text of the value read. *)
Definition text_round_trip {A} (display : A -> str) (from_str : str -> result A) : Prop :=
  (forall x, from_str (display x) = Ok x) /\ (forall s x, from_str s = Ok x -> display x = s).

Theorem C32_simple : text_round_trip simple_display simple_from_str.
Proof.
  split; [intros []; reflexivity|]. intros s x. unfold simple_from_str.
  repeat match goal with
         | |- context [if str_eqb ?a ?b then _ else _] => destruct (str_eqb a b) eqn:?E
         end; intros [= <-];
    match goal with
    | h : str_eqb _ _ = true |- _ => apply str_eqb_eq in h; rewrite h || rewrite <- h; reflexivity
    end.
Qed.
Print Assumptions C32_simple.
Theorem C32_shape_type : text_round_trip shape_type_display shape_type_from_str.
Proof.
  split; [intros []; reflexivity|]. intros s x. unfold shape_type_from_str.
  destruct (match_str shape_type_arms s) as [t|] eqn:M; [|discriminate]. intros [= <-].
  destruct (match_str_In _ _ _ M) as (k & I & <-). clear M. cbn in I.
  repeat (destruct I as [I|I]; [injection I as <- <-; reflexivity|]). destruct I.
Qed.
Print Assumptions C32_shape_type.
Theorem C32_comparator : text_round_trip comparator_display comparator_from_str.
Proof.
  split; [intros []; reflexivity|]. intros s x. unfold comparator_from_str.
  destruct (match_str comparator_arms s) as [t|] eqn:M; [|discriminate]. intros [= <-].
  destruct (match_str_In _ _ _ M) as (k & I & <-). clear M. cbn in I.
  repeat (destruct I as [I|I]; [injection I as <- <-; reflexivity|]). destruct I.
Qed.
Print Assumptions C32_comparator.
Theorem C32_error_source : text_round_trip error_source_display error_source_from_str.
Proof.
  split; [intros []; reflexivity|]. intros s x. unfold error_source_from_str.
  destruct (match_str _ s) as [t|] eqn:M; [|discriminate]. intros [= <-].
  destruct (match_str_In _ _ _ M) as (k & I & <-). clear M. cbn in I.
  repeat (destruct I as [I|I]; [injection I as <- <-; reflexivity|]). destruct I.
Qed.
Print Assumptions C32_error_source.
(** [Version]: exactly "1" and "1.0" are read, both as the one version, whose text is "1.0". *)
Theorem C32_version :
  (forall v, version_from_str (version_display v) = Ok v)
  /\ (forall s v, version_from_str s = Ok v <-> s = lit "1" \/ s = lit "1.0").
Proof.
  split; [intros []; reflexivity|]. intros s []. unfold version_from_str. split.
  - destruct (str_eqb s (lit "1")) eqn:A; [intros _; left; apply str_eqb_eq; exact A|].
    destruct (str_eqb s (lit "1.0")) eqn:B; [intros _; right; apply str_eqb_eq; exact B|discriminate].
  - intros [-> | ->]; reflexivity.
Qed.
Print Assumptions C32_version.
(** Every other text is refused with an error that names it (for the error sources, the trait), never a panic. *)
Theorem C32_refused :
  forall s,
    ((forall x, simple_display x <> s) -> simple_from_str s = Err (EInvalidSimpleShape s))
    /\ ((forall x, shape_type_display x <> s) -> shape_type_from_str s = Err (EInvalidSelectorExpression s))
    /\ ((forall x, comparator_display x <> s) -> comparator_from_str s = Err (EInvalidSelectorExpression s))
    /\ ((forall x, error_source_display x <> s) -> error_source_from_str s = Err (EInvalidTraitValue (lit "error")))
    /\ (s <> lit "1" -> s <> lit "1.0" -> version_from_str s = Err (EInvalidVersionNumber (Some s))).
Proof.
  intros s. split; [|split; [|split; [|split]]].
  - intros N. destruct (simple_from_str s) as [x|e|] eqn:E; [exfalso; exact (N x (proj2 C32_simple s x E))| |]; revert E; unfold simple_from_str;
      repeat match goal with |- context [if str_eqb ?a ?b then _ else _] => destruct (str_eqb a b); [discriminate|] end; intros E; congruence.
  - intros N. destruct (shape_type_from_str s) as [x|e|] eqn:E; [exfalso; exact (N x (proj2 C32_shape_type s x E))| |]; revert E; unfold shape_type_from_str;
      destruct (match_str shape_type_arms s); congruence.
  - intros N. destruct (comparator_from_str s) as [x|e|] eqn:E; [exfalso; exact (N x (proj2 C32_comparator s x E))| |]; revert E; unfold comparator_from_str;
      destruct (match_str comparator_arms s); congruence.
  - intros N. destruct (error_source_from_str s) as [x|e|] eqn:E; [exfalso; exact (N x (proj2 C32_error_source s x E))| |]; revert E; unfold error_source_from_str;
      destruct (match_str _ s); congruence.
  - intros A B. unfold version_from_str. destruct (str_eqb s (lit "1")) eqn:E; [apply str_eqb_eq in E; contradiction|].
    destruct (str_eqb s (lit "1.0")) eqn:E'; [apply str_eqb_eq in E'; contradiction|]. reflexivity.
Qed.
Print Assumptions C32_refused.
Example C32_ex :
  shape_type_from_str (lit "bigDecimal") = Ok TyBigDecimal /\ comparator_from_str (lit "{<<}") = Ok CmProjProperSubset
  /\ comparator_from_str (lit "=<") = Err (EInvalidSelectorExpression (lit "=<")) /\ version_from_str (lit "1") = Ok V10.
Proof. repeat split. Qed.
