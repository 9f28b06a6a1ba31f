(** Running a grammar: fuel does not matter once it suffices; it suffices for well-formed grammars. *)
From Verif.Model Require Import Peg.
From Verif.Proofs Require Import BaseFacts.

Section Peg.
  Context {R : Type}.
  Variable g : grammar R.
  Notation pexp := (pexp R).
  Notation run := (run g).
  Notation res := (option (list (pair R) * str)).

  Lemma run_mono : forall f at_ e s r, run f at_ e s = Some r -> forall f', f <= f' -> run f' at_ e s = Some r.
  Proof.
    induction f as [|f IH]; intros at_ e s r E f' L; [discriminate E|].
    destruct f' as [|f']; [lia|]. assert (L' : f <= f') by lia.
    assert (K : forall a x y z, run f a x y = Some z -> run f' a x y = Some z) by (intros; eapply IH; eauto).
    cbn [Peg.run] in *. destruct e as [x|lo hi|q|a b|a b|a|a|a|a|]; try exact E.
    - destruct (g_rule g q) as [k body]. destruct (run f _ body s) as [[[ps s']|]|] eqn:B; try discriminate E;
        rewrite (K _ _ _ _ B); exact E.
    - destruct (run f at_ a s) as [[[ps s1]|]|] eqn:A; try discriminate E; rewrite (K _ _ _ _ A); [|exact E].
      destruct (run f at_ b (skip g at_ s1)) as [[[qs s2]|]|] eqn:B; try discriminate E; rewrite (K _ _ _ _ B); exact E.
    - destruct (run f at_ a s) as [[[ps s1]|]|] eqn:A; try discriminate E; rewrite (K _ _ _ _ A); [exact E|exact (K _ _ _ _ E)].
    - destruct (run f at_ a s) as [[[ps s1]|]|] eqn:A; try discriminate E; rewrite (K _ _ _ _ A); exact E.
    - destruct (run f at_ a s) as [[[ps s1]|]|] eqn:A; try discriminate E; rewrite (K _ _ _ _ A); [|exact E].
      destruct (run f at_ (PMore a) s1) as [[[qs s2]|]|] eqn:B; try discriminate E; rewrite (K _ _ _ _ B); exact E.
    - destruct (run f at_ a (skip g at_ s)) as [[[ps s1]|]|] eqn:A; try discriminate E; rewrite (K _ _ _ _ A); [|exact E].
      destruct (run f at_ (PMore a) s1) as [[[qs s2]|]|] eqn:B; try discriminate E; rewrite (K _ _ _ _ B); exact E.
    - destruct (run f at_ a s) as [[[ps s1]|]|] eqn:A; try discriminate E; rewrite (K _ _ _ _ A); exact E.
  Qed.

  (** ** Outcomes, whatever the fuel *)
  Definition evals (at_ : bool) (e : pexp) (s : str) (r : res) : Prop := exists f, run f at_ e s = Some r.
  Lemma evals_det at_ e s r r' : evals at_ e s r -> evals at_ e s r' -> r = r'.
  Proof.
    intros [f E] [f' E']. apply run_mono with (f' := f + f') in E; [|lia]. apply run_mono with (f' := f + f') in E'; [|lia]. congruence.
  Qed.
  Lemma evals_two a1 e1 s1 r1 a2 e2 s2 r2 : evals a1 e1 s1 r1 -> evals a2 e2 s2 r2 ->
    exists f, run f a1 e1 s1 = Some r1 /\ run f a2 e2 s2 = Some r2.
  Proof.
    intros [f E] [f' E']. exists (f + f'). split; [apply run_mono with (f := f)|apply run_mono with (f := f')]; auto; lia.
  Qed.
  Lemma ev_str at_ x s : evals at_ (PStr x) (x ++ s) (Some ([], s)).
  Proof.
    exists 1. cbn. replace (strip_prefix x (x ++ s)) with (Some s); [reflexivity|].
    induction x as [|c x IH]; [reflexivity|]. cbn. rewrite Ascii.eqb_refl. exact IH.
  Qed.
  Lemma ev_str_fail at_ x s : strip_prefix x s = None -> evals at_ (PStr x) s None.
  Proof. intros E. exists 1. cbn. rewrite E. reflexivity. Qed.
  Lemma ev_range at_ lo hi s c s' : decode1 s = Some (c, s') -> (lo <= c <= hi)%N -> evals at_ (PRange lo hi) s (Some ([], s')).
  Proof.
    intros E [A B]. exists 1. cbn. rewrite E. apply N.leb_le in A, B. rewrite A, B. reflexivity.
  Qed.
  Lemma ev_range_fail at_ lo hi s : (forall c s', decode1 s = Some (c, s') -> (c < lo \/ hi < c)%N) -> evals at_ (PRange lo hi) s None.
  Proof.
    intros F. exists 1. cbn. destruct (decode1 s) as [[c s']|]; [|reflexivity]. specialize (F c s' eq_refl).
    destruct ((lo <=? c)%N && (c <=? hi)%N) eqn:E; [|reflexivity]. apply andb_true_iff in E as [A B]. apply N.leb_le in A, B. lia.
  Qed.
  Lemma ev_end at_ : evals at_ PEnd [] (Some ([], [])).
  Proof. exists 1. reflexivity. Qed.
  (** A rule: its pair when it is visible. *)
  Definition sub_atomic (k : kind) (at_ : bool) : bool := match k with Atomic => true | _ => at_ end.
  Definition seen (k : kind) (at_ : bool) (q : R) (t : str) (ps : list (pair R)) : list (pair R) :=
    if at_ then [] else match k with Silent => ps | _ => [Pair q t ps] end.
  Lemma taken_app x s : taken (x ++ s) s = x.
  Proof.
    unfold taken. rewrite app_length. replace (length x + length s - length s) with (length x + 0) by lia.
    rewrite firstn_app_2. cbn. apply app_nil_r.
  Qed.
  Lemma ev_call at_ q k body x ps s : g_rule g q = (k, body) ->
    evals (sub_atomic k at_) body (x ++ s) (Some (ps, s)) -> evals at_ (PCall q) (x ++ s) (Some (seen k at_ q x ps, s)).
  Proof.
    intros E [f F]. exists (S f). cbn [Peg.run]. rewrite E. unfold sub_atomic in F. rewrite F, taken_app. reflexivity.
  Qed.
  Lemma ev_call_fail at_ q s : evals (sub_atomic (fst (g_rule g q)) at_) (snd (g_rule g q)) s None -> evals at_ (PCall q) s None.
  Proof.
    intros [f F]. exists (S f). cbn [Peg.run]. destruct (g_rule g q) as [k body]. cbn in F. unfold sub_atomic in F. rewrite F. reflexivity.
  Qed.
  Lemma ev_seq at_ a b s ps s1 qs s2 : evals at_ a s (Some (ps, s1)) -> evals at_ b (skip g at_ s1) (Some (qs, s2)) ->
    evals at_ (PSeq a b) s (Some (ps ++ qs, s2)).
  Proof. intros A B. destruct (evals_two _ _ _ _ _ _ _ _ A B) as (f & FA & FB). exists (S f). cbn. rewrite FA, FB. reflexivity. Qed.
  Lemma ev_seq_fail1 at_ a b s : evals at_ a s None -> evals at_ (PSeq a b) s None.
  Proof. intros [f F]. exists (S f). cbn. rewrite F. reflexivity. Qed.
  Lemma ev_seq_fail2 at_ a b s ps s1 : evals at_ a s (Some (ps, s1)) -> evals at_ b (skip g at_ s1) None -> evals at_ (PSeq a b) s None.
  Proof. intros A B. destruct (evals_two _ _ _ _ _ _ _ _ A B) as (f & FA & FB). exists (S f). cbn. rewrite FA, FB. reflexivity. Qed.
  Lemma ev_alt1 at_ a b s r : evals at_ a s (Some r) -> evals at_ (PAlt a b) s (Some r).
  Proof. intros [f F]. exists (S f). cbn. rewrite F. reflexivity. Qed.
  Lemma ev_alt2 at_ a b s r : evals at_ a s None -> evals at_ b s r -> evals at_ (PAlt a b) s r.
  Proof. intros A B. destruct (evals_two _ _ _ _ _ _ _ _ A B) as (f & FA & FB). exists (S f). cbn. rewrite FA, FB. reflexivity. Qed.
  Lemma ev_opt1 at_ a s r : evals at_ a s (Some r) -> evals at_ (POpt a) s (Some r).
  Proof. intros [f F]. exists (S f). cbn. rewrite F. reflexivity. Qed.
  Lemma ev_opt2 at_ a s : evals at_ a s None -> evals at_ (POpt a) s (Some ([], s)).
  Proof. intros [f F]. exists (S f). cbn. rewrite F. reflexivity. Qed.
  Lemma ev_star_nil at_ a s : evals at_ a s None -> evals at_ (PStar a) s (Some ([], s)).
  Proof. intros [f F]. exists (S f). cbn. rewrite F. reflexivity. Qed.
  Lemma ev_star_cons at_ a s ps s1 qs s2 : evals at_ a s (Some (ps, s1)) -> evals at_ (PMore a) s1 (Some (qs, s2)) ->
    evals at_ (PStar a) s (Some (ps ++ qs, s2)).
  Proof. intros A B. destruct (evals_two _ _ _ _ _ _ _ _ A B) as (f & FA & FB). exists (S f). cbn [Peg.run]. rewrite FA, FB. reflexivity. Qed.
  Lemma ev_more_nil at_ a s : evals at_ a (skip g at_ s) None -> evals at_ (PMore a) s (Some ([], s)).
  Proof. intros [f F]. exists (S f). cbn. rewrite F. reflexivity. Qed.
  Lemma ev_more_cons at_ a s ps s1 qs s2 : evals at_ a (skip g at_ s) (Some (ps, s1)) -> evals at_ (PMore a) s1 (Some (qs, s2)) ->
    evals at_ (PMore a) s (Some (ps ++ qs, s2)).
  Proof. intros A B. destruct (evals_two _ _ _ _ _ _ _ _ A B) as (f & FA & FB). exists (S f). cbn [Peg.run]. rewrite FA, FB. reflexivity. Qed.
  Lemma ev_not1 at_ a s : evals at_ a s None -> evals at_ (PNot a) s (Some ([], s)).
  Proof. intros [f F]. exists (S f). cbn. rewrite F. reflexivity. Qed.
  Lemma ev_not2 at_ a s r : evals at_ a s (Some r) -> evals at_ (PNot a) s None.
  Proof. intros [f F]. exists (S f). cbn. rewrite F. reflexivity. Qed.
  (** By computation. *)
  Lemma ev_run f at_ e s r : run f at_ e s = Some r -> evals at_ e s r.
  Proof. intros E. exists f. exact E. Qed.

  (** In atomic context, a star is a loop. *)
  Lemma ev_more_atomic a s r : evals true (PStar a) s r -> evals true (PMore a) s r.
  Proof. intros [f F]. destruct f as [|f]; [discriminate F|]. exists (S f). cbn [Peg.run] in *. exact F. Qed.

  (** ** What a match says *)
  (** Successful matches, as a relation. *)
  Inductive yields : bool -> pexp -> str -> list (pair R) -> str -> Prop :=
  | y_str at_ x s : yields at_ (PStr x) (x ++ s) [] s
  | y_range at_ lo hi s c s' : decode1 s = Some (c, s') -> (lo <= c <= hi)%N -> yields at_ (PRange lo hi) s [] s'
  | y_call at_ q ps s s' : yields (sub_atomic (fst (g_rule g q)) at_) (snd (g_rule g q)) s ps s' ->
      yields at_ (PCall q) s (seen (fst (g_rule g q)) at_ q (taken s s') ps) s'
  | y_seq at_ a b s ps s1 qs s2 : yields at_ a s ps s1 -> yields at_ b (skip g at_ s1) qs s2 -> yields at_ (PSeq a b) s (ps ++ qs) s2
  | y_alt1 at_ a b s ps s' : yields at_ a s ps s' -> yields at_ (PAlt a b) s ps s'
  | y_alt2 at_ a b s ps s' : evals at_ a s None -> yields at_ b s ps s' -> yields at_ (PAlt a b) s ps s'
  | y_opt1 at_ a s ps s' : yields at_ a s ps s' -> yields at_ (POpt a) s ps s'
  | y_opt2 at_ a s : evals at_ a s None -> yields at_ (POpt a) s [] s
  | y_star at_ a s ps s1 qs s2 : yields at_ a s ps s1 -> yields at_ (PMore a) s1 qs s2 -> yields at_ (PStar a) s (ps ++ qs) s2
  | y_star_nil at_ a s : evals at_ a s None -> yields at_ (PStar a) s [] s
  | y_more at_ a s ps s1 qs s2 : yields at_ a (skip g at_ s) ps s1 -> yields at_ (PMore a) s1 qs s2 -> yields at_ (PMore a) s (ps ++ qs) s2
  | y_more_nil at_ a s : evals at_ a (skip g at_ s) None -> yields at_ (PMore a) s [] s
  | y_not at_ a s : evals at_ a s None -> yields at_ (PNot a) s [] s
  | y_end at_ : yields at_ PEnd [] [] [].
  Lemma run_yields : forall f at_ e s ps s', run f at_ e s = Some (Some (ps, s')) -> yields at_ e s ps s'.
  Proof.
    induction f as [|f IH]; intros at_ e s ps s' E; [discriminate E|].
    cbn [Peg.run] in E. destruct e as [x|lo hi|q|a b|a b|a|a|a|a|].
    - destruct (strip_prefix x s) as [t|] eqn:P; [|discriminate E]. injection E as <- <-. apply strip_prefix_Some in P as ->. constructor.
    - destruct (decode1 s) as [[c t]|] eqn:D; [|discriminate E]. destruct (_ && _)%bool eqn:B; [|discriminate E].
      injection E as <- <-. apply andb_true_iff in B as [B1 B2]. apply N.leb_le in B1, B2. econstructor; eauto.
    - assert (C := y_call at_ q). destruct (g_rule g q) as [k body]. cbn [fst snd] in C. unfold sub_atomic, seen in C.
      destruct (run f _ body s) as [[[qs t]|]|] eqn:B; try discriminate E. injection E as <- <-. apply C, IH, B.
    - destruct (run f at_ a s) as [[[qs t]|]|] eqn:A; try discriminate E.
      destruct (run f at_ b (skip g at_ t)) as [[[us u]|]|] eqn:B; try discriminate E. injection E as <- <-.
      econstructor; eauto.
    - destruct (run f at_ a s) as [[[qs t]|]|] eqn:A; try discriminate E.
      + injection E as <- <-. apply y_alt1; eauto.
      + apply y_alt2; [exists f; exact A|eauto].
    - destruct (run f at_ a s) as [[[qs t]|]|] eqn:A; try discriminate E; injection E as <- <-; [apply y_opt1; eauto|apply y_opt2; exists f; exact A].
    - destruct (run f at_ a s) as [[[qs t]|]|] eqn:A; try discriminate E; [|injection E as <- <-; apply y_star_nil; exists f; exact A].
      destruct (run f at_ (PMore a) t) as [[[us u]|]|] eqn:B; try discriminate E. injection E as <- <-. eapply y_star; eauto.
    - destruct (run f at_ a (skip g at_ s)) as [[[qs t]|]|] eqn:A; try discriminate E; [|injection E as <- <-; apply y_more_nil; exists f; exact A].
      destruct (run f at_ (PMore a) t) as [[[us u]|]|] eqn:B; try discriminate E. injection E as <- <-. eapply y_more; eauto.
    - destruct (run f at_ a s) as [[[qs t]|]|] eqn:A; try discriminate E. injection E as <- <-. constructor. exists f; exact A.
    - destruct s; [|discriminate E]. injection E as <- <-. constructor.
  Qed.
  Lemma evals_fun at_ e s r1 r2 : evals at_ e s r1 -> evals at_ e s r2 -> r1 = r2.
  Proof.
    intros [f F] [h H]. assert (A := run_mono _ _ _ _ _ F (f + h) ltac:(lia)). assert (B := run_mono _ _ _ _ _ H (f + h) ltac:(lia)). congruence.
  Qed.
  (** What is left is the end of the input. *)
  Lemma drop_space_suffix s : exists x, s = x ++ drop_space g s.
  Proof.
    induction s as [|c s [x IH]]; [exists []; reflexivity|]. cbn [drop_space]. destruct (g_space g c); [|exists []; reflexivity].
    exists (c :: x). cbn [app]. rewrite <- IH. reflexivity.
  Qed.
  Lemma skip_suffix at_ s : exists x, s = x ++ skip g at_ s.
  Proof. destruct at_; [exists []; reflexivity|apply drop_space_suffix]. Qed.
  Lemma decode1_local s c s' : decode1 s = Some (c, s') -> exists x, s = x ++ s' /\ forall z, decode1 (x ++ z) = Some (c, z).
  Proof.
    destruct s as [|a s]; [discriminate|]. cbn [decode1]. destruct (ch_N a <? 128)%N eqn:E1.
    { intros [= <- <-]. exists [a]. split; [reflexivity|]. intros z. cbn [app decode1]. rewrite E1. reflexivity. }
    destruct (ch_N a <? 192)%N eqn:E2; [discriminate|]. unfold at_least. destruct (ch_N a <? 224)%N eqn:E3.
    { destruct s as [|b s]; [discriminate|]; destruct (_ <=? _)%N eqn:B; [|discriminate]; intros [= <- <-]; exists [a; b].
      split; [reflexivity|]. intros z. cbn [app decode1]. rewrite E1, E2, E3. unfold at_least. rewrite B. reflexivity. }
    destruct (ch_N a <? 240)%N eqn:E4.
    - destruct s as [|b [|c0 s]]; try discriminate. destruct (_ <=? _)%N eqn:B; [|discriminate]. intros [= <- <-]. exists [a; b; c0].
      split; [reflexivity|]. intros z. cbn [app decode1]. rewrite E1, E2, E3, E4. unfold at_least. rewrite B. reflexivity.
    - destruct s as [|b [|c0 [|d s]]]; try discriminate. destruct (_ <=? _)%N eqn:B; [|discriminate]. intros [= <- <-]. exists [a; b; c0; d].
      split; [reflexivity|]. intros z. cbn [app decode1]. rewrite E1, E2, E3, E4. unfold at_least. rewrite B. reflexivity.
  Qed.
  Lemma decode1_suffix s c s' : decode1 s = Some (c, s') -> exists x, s = x ++ s'.
  Proof. intros D. apply decode1_local in D as (x & E & _). eauto. Qed.
  Lemma yields_more_ind at_ e (P : str -> list (pair R) -> str -> Prop) :
    (forall s, evals at_ e (skip g at_ s) None -> P s [] s) ->
    (forall s p1 s1 p2 s2, yields at_ e (skip g at_ s) p1 s1 -> yields at_ (PMore e) s1 p2 s2 -> P s1 p2 s2 -> P s (p1 ++ p2) s2) ->
    forall s ps s', yields at_ (PMore e) s ps s' -> P s ps s'.
  Proof.
    intros H0 H1 s ps s' Y. remember at_ as b eqn:E1. remember (PMore e) as x eqn:E2. induction Y; try discriminate E2.
    - injection E2 as ->. subst. eapply H1; eauto.
    - injection E2 as ->. subst. apply H0. assumption.
  Qed.
  Lemma yields_star_more e s ps s' : yields true (PStar e) s ps s' -> yields true (PMore e) s ps s'.
  Proof.
    intros Y. inversion Y; subst; [|apply y_more_nil; assumption]. eapply y_more; eassumption.
  Qed.
  Lemma yields_suffix at_ e s ps s' : yields at_ e s ps s' -> exists x, s = x ++ s'.
  Proof.
    induction 1 as [at_ x s|at_ lo hi s c s' D L|at_ q ps s s' Y IH|at_ a b s ps s1 qs s2 Y1 [x X] Y2 [y Y]|at_ a b s ps s' Y IH|at_ a b s ps s' NA Y IH|
      at_ a s ps s' Y IH|at_ a s NA|at_ a s ps s1 qs s2 Y1 [x X] Y2 [y Y]|at_ a s NA|at_ a s ps s1 qs s2 Y1 [x X] Y2 [y Y]|at_ a s NA|at_ a s NA|at_]; eauto.
    - apply decode1_suffix in D. exact D.
    - destruct (skip_suffix at_ s1) as [z Z]. exists (x ++ z ++ y). rewrite X, <- !app_assoc. f_equal. rewrite <- Y. exact Z.
    - exists []. reflexivity.
    - exists (x ++ y). rewrite X, Y, <- app_assoc. reflexivity.
    - exists []. reflexivity.
    - destruct (skip_suffix at_ s) as [z Z]. exists (z ++ x ++ y). rewrite Z at 1. rewrite X, Y, <- !app_assoc. reflexivity.
    - exists []. reflexivity.
    - exists []. reflexivity.
    - exists []. reflexivity.
  Qed.

  (** ** Well-formed grammars *)
  Variable nullable : R -> bool.
  Variable rank : R -> nat.
  (** May match without consuming anything. *)
  Fixpoint nul (e : pexp) : bool :=
    match e with
    | PStr x => match x with [] => true | _ => false end
    | PRange _ _ => false
    | PCall q => nullable q
    | PSeq a b => nul a && nul b
    | PAlt a b => nul a || nul b
    | POpt _ | PStar _ | PMore _ | PNot _ | PEnd => true
    end.
  Variable top : nat.
  (** Rules that are called before anything is consumed have a rank below [k]; loops consume. *)
  Fixpoint ranked (k : nat) (e : pexp) : bool :=
    match e with
    | PStr _ | PRange _ _ | PEnd => true
    | PCall q => (rank q <? k)%nat
    | PSeq a b => ranked k a && ranked (if nul a then k else top) b
    | PAlt a b => ranked k a && ranked k b
    | POpt a | PNot a => ranked k a
    | PStar a | PMore a => ranked k a && negb (nul a)
    end.
  Fixpoint size (e : pexp) : nat :=
    match e with
    | PStr _ | PRange _ _ | PEnd | PCall _ => 1
    | PSeq a b | PAlt a b => S (size a + size b)
    | POpt a | PNot a | PMore a => S (size a)
    | PStar a => S (S (size a))
    end.
  Variable big : nat.
  Hypothesis rules_ok : forall q, let (k, body) := g_rule g q in
    (nul body = true -> nullable q = true) /\ ranked (rank q) body = true /\ size body < big.

  Lemma drop_space_le s : length (drop_space g s) <= length s.
  Proof. induction s as [|c s IH]; [reflexivity|]. cbn. destruct (g_space g c); cbn; lia. Qed.
  Lemma skip_le at_ s : length (skip g at_ s) <= length s.
  Proof. destruct at_; [reflexivity|apply drop_space_le]. Qed.
  Lemma strip_length x : forall s s', strip_prefix x s = Some s' -> length s = length x + length s'.
  Proof.
    induction x as [|c x IH]; intros s s' E; cbn in E; [injection E as <-; reflexivity|].
    destruct s as [|d s]; [discriminate E|]. destruct (Ascii.eqb c d); [|discriminate E]. cbn. rewrite (IH _ _ E). reflexivity.
  Qed.
  Lemma at_least_some lo n (s : str) c s' : at_least lo n s = Some (c, s') -> c = n /\ s' = s /\ (lo <= c)%N.
  Proof. unfold at_least. destruct (N.leb_spec lo n); [|discriminate]. intros [= <- <-]. auto. Qed.
  Lemma decode1_length s c s' : decode1 s = Some (c, s') -> length s' < length s.
  Proof.
    destruct s as [|a s]; [discriminate|]. cbn [decode1]. destruct (ch_N a <? 128)%N; [intros [= _ <-]; cbn; lia|].
    destruct (ch_N a <? 192)%N; [discriminate|].
    destruct (ch_N a <? 224)%N; [destruct s as [|b s]; [discriminate|intros E; apply at_least_some in E as (_ & -> & _); cbn; lia]|].
    destruct (ch_N a <? 240)%N.
    - destruct s as [|b [|c0 s]]; try discriminate. intros E; apply at_least_some in E as (_ & -> & _). cbn; lia.
    - destruct s as [|b [|c0 [|d s]]]; try discriminate. intros E; apply at_least_some in E as (_ & -> & _). cbn; lia.
  Qed.
  (** Matching never gives back more input, and consumes some if it cannot be empty. *)
  Lemma run_le : forall f at_ e s ps s', run f at_ e s = Some (Some (ps, s')) ->
    length s' <= length s /\ (nul e = false -> length s' < length s).
  Proof.
    induction f as [|f IH]; intros at_ e s ps s' E; [discriminate E|].
    cbn [Peg.run] in E. destruct e as [x|lo hi|q|a b|a b|a|a|a|a|]; cbn [nul].
    - destruct (strip_prefix x s) as [t|] eqn:P; [|discriminate E]. injection E as _ <-. apply strip_length in P.
      split; [lia|]. destruct x; [discriminate|]. cbn in P. lia.
    - destruct (decode1 s) as [[c t]|] eqn:D; [|discriminate E]. destruct (_ && _)%bool; [|discriminate E].
      injection E as _ <-. apply decode1_length in D. lia.
    - assert (Q := rules_ok q). destruct (g_rule g q) as [k body]. destruct Q as (Q & _ & _).
      destruct (run f _ body s) as [[[qs t]|]|] eqn:B; try discriminate E. injection E as _ <-.
      destruct (IH _ _ _ _ _ B) as [L1 L2]. split; [exact L1|]. intros N. apply L2.
      destruct (nul body); [rewrite (Q eq_refl) in N; discriminate N|reflexivity].
    - destruct (run f at_ a s) as [[[qs t]|]|] eqn:A; try discriminate E.
      destruct (run f at_ b (skip g at_ t)) as [[[us u]|]|] eqn:B; try discriminate E. injection E as _ <-.
      destruct (IH _ _ _ _ _ A) as [A1 A2]. destruct (IH _ _ _ _ _ B) as [B1 B2]. assert (K := skip_le at_ t). split; [lia|].
      intros N. apply andb_false_iff in N as [N|N]; [specialize (A2 N)|specialize (B2 N)]; lia.
    - destruct (run f at_ a s) as [[[qs t]|]|] eqn:A; try discriminate E.
      + injection E as _ <-. destruct (IH _ _ _ _ _ A) as [A1 A2]. split; [lia|]. intros N. apply orb_false_iff in N as [N _]. auto.
      + destruct (IH _ _ _ _ _ E) as [A1 A2]. split; [lia|]. intros N. apply orb_false_iff in N as [_ N]. auto.
    - destruct (run f at_ a s) as [[[qs t]|]|] eqn:A; try discriminate E.
      + injection E as _ <-. destruct (IH _ _ _ _ _ A) as [A1 A2]. split; [lia|discriminate].
      + injection E as _ <-. split; [lia|discriminate].
    - destruct (run f at_ a s) as [[[qs t]|]|] eqn:A; try discriminate E; [|injection E as _ <-; split; [lia|discriminate]].
      destruct (run f at_ (PMore a) t) as [[[us u]|]|] eqn:B; try discriminate E. injection E as _ <-.
      destruct (IH _ _ _ _ _ A) as [A1 A2]. destruct (IH _ _ _ _ _ B) as [B1 B2]. split; [lia|discriminate].
    - destruct (run f at_ a (skip g at_ s)) as [[[qs t]|]|] eqn:A; try discriminate E; [|injection E as _ <-; split; [lia|discriminate]].
      destruct (run f at_ (PMore a) t) as [[[us u]|]|] eqn:B; try discriminate E. injection E as _ <-.
      destruct (IH _ _ _ _ _ A) as [A1 A2]. destruct (IH _ _ _ _ _ B) as [B1 B2]. assert (K := skip_le at_ s). split; [lia|discriminate].
    - destruct (run f at_ a s) as [[[qs t]|]|] eqn:A; try discriminate E. injection E as _ <-. split; [lia|discriminate].
    - destruct s; [|discriminate E]. injection E as _ <-. split; [lia|discriminate].
  Qed.

  (** Enough fuel: an input character pays for all ranks, a rank for all sizes. *)
  Definition cost (n k z : nat) : nat := n * (top * big + big) + k * big + z.
  Lemma run_total : forall f at_ e s k, ranked k e = true -> k <= top -> size e <= big -> cost (length s) k (size e) <= f ->
    exists r, run f at_ e s = Some r.
  Proof.
    induction f as [|f IH]; intros at_ e s k RK KT SZ C.
    - exfalso. unfold cost in C. destruct e; cbn in C; lia.
    - assert (Shorter : forall n m z, n < m -> z <= big -> cost n top z + 1 <= cost m 0 1 + 1 /\ cost n top z <= cost m 0 0).
      { intros n m z L Z. unfold cost. assert (m = S (n + (m - n - 1))) as -> by lia. rewrite Nat.mul_succ_l, Nat.mul_add_distr_r.
        generalize (n * (top * big + big)). generalize ((m - n - 1) * (top * big + big)). generalize (top * big). lia. }
      assert (Same : forall n m k z w, n <= m -> z < w -> cost n k z < cost m k w).
      { intros n m k0 z w L Z. unfold cost. assert (n * (top * big + big) <= m * (top * big + big)) by (apply Nat.mul_le_mono_r; lia). lia. }
      cbn [Peg.run]. destruct e as [x|lo hi|q|a b|a b|a|a|a|a|]; cbn [ranked size] in *; try (eexists; reflexivity).
      + assert (Q := rules_ok q). destruct (g_rule g q) as [kd body] eqn:G. destruct Q as (_ & Q & Z).
        apply Nat.ltb_lt in RK.
        destruct (IH (match kd with Atomic => true | _ => at_ end) body s (rank q) Q) as [r E]; [lia|lia| |].
        { unfold cost in *. assert (S (rank q) * big <= k * big) by (apply Nat.mul_le_mono_r; lia). lia. }
        rewrite E. destruct r as [[ps s']|]; eexists; reflexivity.
      + apply andb_true_iff in RK as [RA RB].
        destruct (IH at_ a s k RA KT) as [r E]; [lia|specialize (Same (length s) (length s) k (size a) (S (size a + size b))); lia|].
        rewrite E. destruct r as [[ps s1]|]; [|eexists; reflexivity].
        destruct (run_le _ _ _ _ _ _ E) as [L1 L2]. assert (K := skip_le at_ s1).
        assert (B : exists r, run f at_ b (skip g at_ s1) = Some r).
        { destruct (nul a) eqn:N.
          - apply (IH at_ b _ k RB KT); [lia|]. specialize (Same (length (skip g at_ s1)) (length s) k (size b) (S (size a + size b))). lia.
          - apply (IH at_ b _ top RB); [lia|lia|]. specialize (L2 eq_refl).
            destruct (Shorter (length (skip g at_ s1)) (length s) (size b)) as [_ X]; [lia|lia|]. unfold cost in *. lia. }
        destruct B as [r B]. rewrite B. destruct r as [[qs s2]|]; eexists; reflexivity.
      + apply andb_true_iff in RK as [RA RB].
        destruct (IH at_ a s k RA KT) as [r E]; [lia|specialize (Same (length s) (length s) k (size a) (S (size a + size b))); lia|].
        rewrite E. destruct r as [[ps s1]|]; [eexists; reflexivity|].
        apply (IH at_ b s k RB KT); [lia|specialize (Same (length s) (length s) k (size b) (S (size a + size b))); lia].
      + destruct (IH at_ a s k RK KT) as [r E]; [lia|specialize (Same (length s) (length s) k (size a) (S (size a))); lia|].
        rewrite E. destruct r as [[ps s1]|]; eexists; reflexivity.
      + apply andb_true_iff in RK as [RA RN]. apply negb_true_iff in RN.
        destruct (IH at_ a s k RA KT) as [r E]; [lia|specialize (Same (length s) (length s) k (size a) (S (S (size a)))); lia|].
        rewrite E. destruct r as [[ps s1]|]; [|eexists; reflexivity].
        destruct (run_le _ _ _ _ _ _ E) as [_ L2]. specialize (L2 RN).
        destruct (IH at_ (PMore a) s1 top) as [r B]; cbn [ranked size].
        { rewrite RN. rewrite andb_true_r. revert RA KT. clear. intros RA KT. revert k RA KT. 
          induction a as [x|lo hi|q|a IHa b IHb|a IHa b IHb|a IHa|a IHa|a IHa|a IHa|]; intros k RA KT; cbn [ranked] in *; auto.
          - apply Nat.ltb_lt in RA. apply Nat.ltb_lt. lia.
          - apply andb_true_iff in RA as [A B]. rewrite (IHa _ A KT). destruct (nul a); [exact (IHb _ B KT)|exact B].
          - apply andb_true_iff in RA as [A B]. rewrite (IHa _ A KT), (IHb _ B KT). reflexivity.
          - eauto.
          - apply andb_true_iff in RA as [A B]. rewrite (IHa _ A KT), B. reflexivity.
          - apply andb_true_iff in RA as [A B]. rewrite (IHa _ A KT), B. reflexivity.
          - eauto. }
        { lia. } { lia. }
        { destruct (Shorter (length s1) (length s) (S (size a))) as [_ X]; [lia|lia|]. unfold cost in *. lia. }
        rewrite B. destruct r as [[qs s2]|]; eexists; reflexivity.
      + apply andb_true_iff in RK as [RA RN]. apply negb_true_iff in RN. assert (K := skip_le at_ s).
        destruct (IH at_ a (skip g at_ s) k RA KT) as [r E]; [lia|specialize (Same (length (skip g at_ s)) (length s) k (size a) (S (size a))); lia|].
        rewrite E. destruct r as [[ps s1]|]; [|eexists; reflexivity].
        destruct (run_le _ _ _ _ _ _ E) as [_ L2]. specialize (L2 RN).
        destruct (IH at_ (PMore a) s1 k) as [r B]; cbn [ranked size].
        { rewrite RA, RN. reflexivity. } { lia. } { lia. }
        { destruct (Shorter (length s1) (length s) (S (size a))) as [_ X]; [lia|lia|]. unfold cost in *.
          assert (k * big <= top * big) by (apply Nat.mul_le_mono_r; lia). lia. }
        rewrite B. destruct r as [[qs s2]|]; eexists; reflexivity.
      + destruct (IH at_ a s k RK KT) as [r E]; [lia|specialize (Same (length s) (length s) k (size a) (S (size a))); lia|].
        rewrite E. destruct r as [[ps s1]|]; eexists; reflexivity.
  Qed.
End Peg.
