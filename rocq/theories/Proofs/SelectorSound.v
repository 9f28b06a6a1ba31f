(** What a parsed selector looks like, and when parsing panics. *)
From Verif.Model Require Import SelectorParse.
From Verif.Spec Require Import IdentitySpec SelectorSpec.
From Verif.Proofs Require Import BaseFacts IdentityFacts PegFacts SelectorGrammarFacts SelectorFacts.

Notation y := (yields selector_grammar).
Notation unblank := (drop_space selector_grammar).

(** ** Taking matches apart *)
Lemma ystr at_ x s ps s' : y at_ (PStr x) s ps s' -> ps = [] /\ s = x ++ s'.
Proof. intros H; inversion H; subst; auto. Qed.
Lemma yrange at_ lo hi s ps s' : y at_ (PRange lo hi) s ps s' -> ps = [] /\ exists c, decode1 s = Some (c, s') /\ (lo <= c <= hi)%N.
Proof. intros H; inversion H; subst; eauto. Qed.
Lemma ycall at_ q s ps s' : y at_ (PCall q) s ps s' ->
  exists qs, ps = seen (fst (selector_rule q)) at_ q (taken s s') qs /\ y (sub_atomic (fst (selector_rule q)) at_) (snd (selector_rule q)) s qs s'.
Proof. intros H; inversion H; subst. eexists; split; [reflexivity|]. assumption. Qed.
Lemma yseq at_ a b s ps s' : y at_ (PSeq a b) s ps s' ->
  exists p1 s1 p2, ps = p1 ++ p2 /\ y at_ a s p1 s1 /\ y at_ b (skip selector_grammar at_ s1) p2 s'.
Proof. intros H; inversion H; subst. do 3 eexists. split; [reflexivity|]. split; eassumption. Qed.
Lemma yalt at_ a b s ps s' : y at_ (PAlt a b) s ps s' -> y at_ a s ps s' \/ y at_ b s ps s'.
Proof. intros H; inversion H; subst; auto. Qed.
Lemma yalt_not at_ a b s ps s' : y at_ (PAlt a b) s ps s' -> y at_ a s ps s' \/ ev at_ a s None /\ y at_ b s ps s'.
Proof. intros H; inversion H; subst; auto. Qed.
Lemma yopt at_ a s ps s' : y at_ (POpt a) s ps s' -> y at_ a s ps s' \/ ps = [] /\ s' = s.
Proof. intros H; inversion H; subst; auto. Qed.
Lemma ystar at_ a s ps s' : y at_ (PStar a) s ps s' -> (ps = [] /\ s' = s) \/ exists p1 s1 p2, ps = p1 ++ p2 /\ y at_ a s p1 s1 /\ y at_ (PMore a) s1 p2 s'.
Proof. intros H; inversion H; subst; [|auto]. right. do 3 eexists. split; [reflexivity|]. split; eassumption. Qed.
Lemma yend at_ s ps s' : y at_ PEnd s ps s' -> ps = [] /\ s = [] /\ s' = [].
Proof. intros H; inversion H; subst; auto. Qed.
Lemma y_atomic at_ e s ps s' : y at_ e s ps s' -> at_ = true -> ps = [].
Proof.
  induction 1; intros E; subst; try reflexivity; auto.
  - rewrite IHyields1, IHyields2 by reflexivity. reflexivity.
  - rewrite IHyields1, IHyields2 by reflexivity. reflexivity.
  - rewrite IHyields1, IHyields2 by reflexivity. reflexivity.
Qed.
Lemma taken_whole x s : taken (x ++ s) s = x. Proof. apply taken_app. Qed.

(** ** Characters *)
Lemma decode1_ascii s n s' : decode1 s = Some (n, s') -> (n < 128)%N -> exists c, s = c :: s' /\ ch_N c = n.
Proof.
  destruct s as [|a s]; [discriminate|]. cbn [decode1]. destruct (ch_N a <? 128)%N; [intros [= <- <-] _; eauto|].
  destruct (ch_N a <? 192)%N; [discriminate|]. intros E L. exfalso.
  destruct (ch_N a <? 224)%N; [destruct s as [|b s]; [discriminate|]; apply at_least_some in E as (_ & _ & E); lia|].
  destruct (ch_N a <? 240)%N.
  - destruct s as [|b [|c0 s]]; try discriminate. apply at_least_some in E as (_ & _ & E); lia.
  - destruct s as [|b [|c0 [|d s]]]; try discriminate. apply at_least_some in E as (_ & _ & E); lia.
Qed.
Lemma y_ascii at_ lo hi s ps s' : (hi < 128)%N -> y at_ (PRange lo hi) s ps s' -> exists c, s = c :: s' /\ in_range lo hi c = true.
Proof.
  intros L H. apply yrange in H as (_ & n & D & B). apply decode1_ascii in D as (c & -> & C); [|lia].
  exists c. split; [reflexivity|]. unfold in_range. rewrite C. apply andb_true_iff. split; apply N.leb_le; lia.
Qed.
Lemma y_digit at_ s ps s' : y at_ ASCII_DIGIT s ps s' -> exists c, s = c :: s' /\ is_digit c = true.
Proof. apply y_ascii. reflexivity. Qed.
Lemma y_alpha at_ s ps s' : y at_ ASCII_ALPHA s ps s' -> exists c, s = c :: s' /\ is_alpha c = true.
Proof.
  intros H. apply yalt in H as [H|H]; apply y_ascii in H as (c & -> & C); try reflexivity; exists c; split; try reflexivity;
    unfold is_alpha, is_upper, is_lower; rewrite C, ?orb_true_r; reflexivity.
Qed.
Definition name_char (c : ascii) : Prop := is_alpha c = true \/ is_digit c = true \/ c = "_"%char.
Lemma y_ident_char at_ s ps s' : y at_ ident_char s ps s' -> exists c, s = c :: s' /\ name_char c.
Proof.
  intros H. apply yalt in H as [H|H]; [apply y_alpha in H as (c & -> & C); exists c; unfold name_char; auto|].
  apply yalt in H as [H|H]; [apply y_digit in H as (c & -> & C); exists c; unfold name_char; auto|].
  apply ystr in H as [_ ->]. exists "_"%char. unfold name_char. auto.
Qed.
Lemma y_chars e (P : ascii -> Prop) : (forall s ps s', y true e s ps s' -> exists c, s = c :: s' /\ P c) ->
  forall s ps s', y true (PStar e) s ps s' -> exists l, s = l ++ s' /\ Forall P l.
Proof.
  intros H s ps s' Y. apply yields_star_more in Y. revert s ps s' Y.
  apply yields_more_ind; [intros s _; exists []; split; [reflexivity|constructor]|].
  intros s p1 s1 p2 s2 A _ (l & -> & L). apply H in A as (c & E & C). exists (c :: l). split; [exact E|]. constructor; assumption.
Qed.
Lemma y_plus_chars e (P : ascii -> Prop) : (forall s ps s', y true e s ps s' -> exists c, s = c :: s' /\ P c) ->
  forall s ps s', y true (PPlus e) s ps s' -> exists l, s = l ++ s' /\ l <> [] /\ Forall P l.
Proof.
  intros H s ps s' Y. apply yseq in Y as (p1 & s1 & p2 & _ & A & B). apply H in A as (c & -> & C).
  apply (y_chars e P H) in B as (l & E & L). cbn [skip] in E. subst s1. exists (c :: l). split; [reflexivity|]. split; [discriminate|].
  constructor; assumption.
Qed.

(** ** Tokens *)
Lemma y_identifier at_ s ps s' : y at_ (call S_identifier) s ps s' ->
  exists n, s = n ++ s' /\ short_identifier n /\ ps = seen Atomic at_ S_identifier n [].
Proof.
  intros Y. apply ycall in Y as (qs & -> & Y). cbn [fst snd selector_rule sub_atomic] in *.
  assert (qs = []) as -> by (eapply y_atomic; eauto).
  assert (K : exists n, s = n ++ s' /\ short_identifier n).
  { apply yalt in Y as [Y|Y].
    - apply yseq in Y as (p1 & s1 & p2 & _ & A & B). apply y_alpha in A as (c & -> & C).
      apply (y_chars _ _ (y_ident_char true)) in B as (l & E & L). cbn [skip] in E. subst s1.
      exists (c :: l). split; [reflexivity|]. exists c, l. auto.
    - cbn [PSeqs] in Y. apply yseq in Y as (p1 & s1 & p2 & _ & A & Y). apply ystr in A as (_ & ->). cbn [skip] in Y.
      apply yseq in Y as (p3 & s3 & p4 & _ & A & B). apply y_alpha in A as (c & -> & C).
      apply (y_chars _ _ (y_ident_char true)) in B as (l & E & L). cbn [skip] in E. subst s3.
      exists ("_"%char :: c :: l). split; [reflexivity|]. exists c, l. auto. }
  destruct K as (n & -> & S). rewrite taken_whole. eauto.
Qed.
Lemma y_namespace s ps s' : y true (call S_namespace) s ps s' ->
  exists ids, ids <> [] /\ Forall short_identifier ids /\ s = join ["."%char] ids ++ s'.
Proof.
  intros Y. apply ycall in Y as (qs & _ & Y). cbn [fst snd selector_rule sub_atomic] in *.
  apply yseq in Y as (p1 & s1 & p2 & _ & A & B). apply y_identifier in A as (n & -> & S & _). cbn [skip] in B.
  assert (K : exists ids, Forall short_identifier ids /\ s1 = dotted ids ++ s').
  { apply yields_star_more in B. revert s1 p2 s' B.
    apply (yields_more_ind _ _ _ (fun s1 _ s' => exists ids, Forall short_identifier ids /\ s1 = dotted ids ++ s')); [intros s _; exists []; split; [constructor|reflexivity]|].
    intros s p2 s1 p3 s2 A _ (ids & F & ->). apply yseq in A as (q1 & t1 & q2 & _ & A & C). apply ystr in A as (_ & E). cbn [skip] in *.
    apply y_identifier in C as (m & -> & M & _). exists (m :: ids). split; [constructor; assumption|].
    rewrite E. unfold dotted. cbn [map concat]. rewrite <- !app_assoc. reflexivity. }
  destruct K as (ids & F & ->). exists (n :: ids). split; [discriminate|]. split; [constructor; assumption|].
  rewrite join_dotted, <- app_assoc. reflexivity.
Qed.
Lemma y_absolute s ps s' : y false (call S_absolute_root_shape_id) s ps s' ->
  exists ids n, ids <> [] /\ Forall short_identifier ids /\ short_identifier n
    /\ ps = [Pair S_absolute_root_shape_id (join ["."%char] ids ++ "#"%char :: n) []] /\ s = (join ["."%char] ids ++ "#"%char :: n) ++ s'.
Proof.
  intros Y. apply ycall in Y as (qs & -> & Y). cbn [fst snd selector_rule sub_atomic PSeqs] in *.
  assert (qs = []) as -> by (eapply y_atomic; eauto).
  apply yseq in Y as (p1 & s1 & p2 & _ & A & B). apply y_namespace in A as (ids & NE & F & ->). cbn [skip] in B.
  apply yseq in B as (p3 & s3 & p4 & _ & A & B). apply ystr in A as (_ & ->). cbn [skip] in B.
  apply y_identifier in B as (n & -> & S & _). exists ids, n. repeat (split; [assumption|]).
  assert (E : join ["."%char] ids ++ lit "#" ++ n ++ s' = (join ["."%char] ids ++ "#"%char :: n) ++ s') by (rewrite <- app_assoc; reflexivity).
  rewrite E, taken_whole. auto.
Qed.
Lemma y_quoted_char (q : N) r s ps s' :
  (q = 34%N /\ r = S_double_quoted_char) \/ (q = 39%N /\ r = S_single_quoted_char) ->
  y true (call r) s ps s' -> exists c, decode1 s = Some (c, s') /\ (32 <= c)%N /\ c <> q /\ c <> 92%N /\ (c <= 1114111)%N.
Proof.
  intros Q Y. apply ycall in Y as (qs & _ & Y).
  assert (K : exists lo1 hi1 lo2 hi2, y true (PAlts [PRange 32 hi1; PRange lo2 91; PRange 93 1114111]) s qs s' /\ (hi1 < q /\ q < lo2 /\ hi1 < 92 /\ 32 <= lo2 /\ lo1 = lo2 /\ hi2 = hi1)%N).
  { destruct Q as [[-> ->]|[-> ->]]; cbn [fst snd selector_rule sub_atomic] in Y.
    - exists 35%N, 33%N, 35%N, 33%N. split; [exact Y|lia].
    - exists 40%N, 38%N, 40%N, 38%N. split; [exact Y|lia]. }
  destruct K as (lo1 & hi1 & lo2 & hi2 & K & B). cbn [PAlts] in K.
  assert (QL : (q < 92)%N) by (destruct Q as [[-> _]|[-> _]]; lia).
  apply yalt in K as [K|K]; [apply yrange in K as (_ & c & D & L); exists c; split; [exact D|lia]|].
  apply yalt in K as [K|K]; apply yrange in K as (_ & c & D & L); exists c; (split; [exact D|lia]).
Qed.
Lemma y_quoted (q : N) r s ps s' : (q = 34%N /\ r = S_double_quoted_char) \/ (q = 39%N /\ r = S_single_quoted_char) ->
  y true (PSeqs [PStr [ascii_of_N q]; PPlus (call r); PStr [ascii_of_N q]]) s ps s' ->
  exists t, t <> [] /\ quotable q t /\ s = (ascii_of_N q :: t ++ [ascii_of_N q]) ++ s'.
Proof.
  intros Q Y. cbn [PSeqs] in Y. apply yseq in Y as (p1 & s1 & p2 & _ & A & Y). apply ystr in A as (_ & ->). cbn [skip] in Y.
  apply yseq in Y as (p3 & s3 & p4 & _ & A & B). apply ystr in B as (_ & B). cbn [skip] in B. subst s3.
  apply yseq in A as (q1 & t1 & q2 & _ & A & C). cbn [skip] in C.
  assert (M : forall s ps s', y true (PMore (call r)) s ps s' -> exists t, s = t ++ s' /\ quotable q t).
  { apply yields_more_ind; [intros s _; exists []; split; [reflexivity|constructor]|].
    intros s p7 s7 p5 s2 H _ (t & -> & T). cbn [skip] in *.
    destruct (y_quoted_char q r _ _ _ Q H) as (c & D & L1 & L2 & L3 & L4).
    destruct (decode1_local _ _ _ D) as (x & -> & X). exists (x ++ t). split; [rewrite <- app_assoc; reflexivity|].
    apply (quotable_cons q _ c t); auto. }
  apply yields_star_more, M in C as (t & -> & T).
  destruct (y_quoted_char q r _ _ _ Q A) as (c & D & L1 & L2 & L3 & L4).
  destruct (decode1_local _ _ _ D) as (x & -> & X). exists (x ++ t). split; [|split].
  - intros E. apply app_eq_nil in E as [-> ->]. specialize (X []). discriminate X.
  - apply (quotable_cons q _ c t); auto.
  - cbn [app]. rewrite <- !app_assoc. reflexivity.
Qed.
Lemma y_text s ps s' : y false (call S_text) s ps s' ->
  exists q t i, t <> [] /\ (quotable 34 t \/ quotable 39 t) /\ ps = [Pair S_text (ascii_of_N q :: t ++ [ascii_of_N q]) i].
Proof.
  intros Y. apply ycall in Y as (qs & -> & Y). cbn [fst snd selector_rule sub_atomic] in *.
  apply yalt in Y as [Y|Y]; apply ycall in Y as (us & -> & Y); cbn [fst snd selector_rule sub_atomic] in *.
  - apply (y_quoted 39 S_single_quoted_char) in Y as (t & NE & Q & ->); [|auto]. rewrite taken_whole. exists 39%N, t. eexists. cbn [seen]. eauto.
  - apply (y_quoted 34 S_double_quoted_char) in Y as (t & NE & Q & ->); [|auto]. rewrite taken_whole. exists 34%N, t. eexists. cbn [seen]. eauto.
Qed.
Lemma y_int s ps s' : y true (call S_int) s ps s' -> exists n, whole n /\ s = n ++ s'.
Proof.
  intros Y. apply ycall in Y as (qs & _ & Y). cbn [fst snd selector_rule sub_atomic] in *.
  apply yalt in Y as [Y|Y].
  - apply ycall in Y as (us & _ & Y). cbn [fst snd selector_rule] in *. apply ystr in Y as (_ & ->). exists (lit "0"). split; [left; reflexivity|reflexivity].
  - apply yseq in Y as (p1 & s1 & p2 & _ & A & B). apply y_ascii in A as (c & -> & C); [|reflexivity].
    apply (y_chars _ _ (y_digit true)) in B as (l & E & L). cbn [skip] in E. subst s1.
    exists (c :: l). split; [right; exists c, l; auto|reflexivity].
Qed.
Definition fraction (t : str) : Prop := exists d, t = "."%char :: d /\ d <> [] /\ all_digits d.
Lemma y_number s ps s' : y false (call S_number) s ps s' ->
  exists sign n frac exp, (sign = [] \/ sign = lit "-") /\ whole n /\ (frac = [] \/ fraction frac) /\ (exp = [] \/ exponent exp)
    /\ ps = [Pair S_number (sign ++ n ++ frac ++ exp) []] /\ s = (sign ++ n ++ frac ++ exp) ++ s'.
Proof.
  intros Y. apply ycall in Y as (qs & -> & Y). cbn [fst snd selector_rule sub_atomic PSeqs] in *.
  assert (qs = []) as -> by (eapply y_atomic; eauto).
  apply yseq in Y as (p1 & s1 & p2 & _ & A & Y). cbn [skip] in Y.
  assert (SG : exists sign, (sign = [] \/ sign = lit "-") /\ s = sign ++ s1).
  { apply yopt in A as [A|(_ & ->)]; [|exists []; auto]. apply ycall in A as (us & _ & A). apply ystr in A as (_ & ->). exists (lit "-"). auto. }
  destruct SG as (sign & SG & ->). clear A.
  apply yseq in Y as (p3 & s3 & p4 & _ & A & Y). cbn [skip] in Y. apply y_int in A as (n & W & ->).
  apply yseq in Y as (p5 & s5 & p6 & _ & A & Y). cbn [skip] in Y.
  assert (FR : exists frac, (frac = [] \/ fraction frac) /\ s3 = frac ++ s5).
  { apply yopt in A as [A|(_ & ->)]; [|exists []; auto]. apply ycall in A as (us & _ & A). cbn [fst snd selector_rule sub_atomic] in A.
    apply yseq in A as (p7 & s7 & p8 & _ & A & B). apply ycall in A as (vs & _ & A). apply ystr in A as (_ & ->). cbn [skip] in B.
    apply (y_plus_chars _ _ (y_digit true)) in B as (d & -> & NE & D). exists ("."%char :: d). split; [right; exists d; auto|reflexivity]. }
  destruct FR as (frac & FR & ->). clear A.
  assert (EX : exists exp, (exp = [] \/ exponent exp) /\ s5 = exp ++ s').
  { apply yopt in Y as [A|(_ & ->)]; [|exists []; auto]. apply ycall in A as (us & _ & A). cbn [fst snd selector_rule sub_atomic PSeqs] in A.
    apply yseq in A as (p7 & s7 & p8 & _ & A & B). apply ycall in A as (vs & _ & A). cbn [skip fst snd selector_rule] in *.
    assert (EE : exists e, (e = "e"%char \/ e = "E"%char) /\ s5 = e :: s7).
    { apply yalt in A as [A|A]; apply ystr in A as (_ & ->); eexists; (split; [|reflexivity]); auto. }
    destruct EE as (e & EE & ->). clear A. apply yseq in B as (p9 & s9 & p10 & _ & A & B). cbn [skip] in B.
    assert (S2 : exists sg, (sg = [] \/ sg = lit "-" \/ sg = lit "+") /\ s7 = sg ++ s9).
    { apply yopt in A as [A|(_ & ->)]; [|exists []; auto].
      apply yalt in A as [A|A]; apply ycall in A as (ws & _ & A); apply ystr in A as (_ & ->); [exists (lit "-")|exists (lit "+")]; auto. }
    destruct S2 as (sg & S2 & ->). apply (y_plus_chars _ _ (y_digit true)) in B as (d & -> & NE & D).
    exists (e :: sg ++ d). split; [right; exists e, sg, d; auto|]. cbn [app]. rewrite <- app_assoc. reflexivity. }
  destruct EX as (exp & EX & ->). exists sign, n, frac, exp. repeat (split; [assumption|]).
  replace (sign ++ n ++ frac ++ exp ++ s') with ((sign ++ n ++ frac ++ exp) ++ s') by (rewrite <- !app_assoc; reflexivity).
  rewrite taken_whole. auto.
Qed.

(** ** From pairs to selectors *)
Section Sound.
  Variable f64_parse : str -> Z.
  (** The whole text. *)
  Variable T : str.
  (** A bound on the rest of the text, for induction. *)
  Variable bnd : nat.
  Definition bad : Prop := exists a w b, T = a ++ w ++ b /\ not_i64 w.
  Definition good {A} (Q : A -> Prop) (r : result A) : Prop :=
    match r with Ok a => Q a | Err _ => True | Panic => bad end.
  Lemma good_bind {A B} (P : A -> Prop) (Q : B -> Prop) r f : good P r -> (forall a, P a -> good Q (f a)) -> good Q (rbind r f).
  Proof. destruct r; cbn; auto. Qed.
  Lemma good_map {X A} (Q : A -> Prop) (f : X -> result A) ps : Forall (fun p => good Q (f p)) ps ->
    good (fun l => Forall Q l /\ (ps <> [] -> l <> [])) (map_result f ps).
  Proof.
    induction 1 as [|p ps P F IH]; [cbn; split; [constructor|auto]|]. cbn [map_result].
    apply (good_bind Q); [exact P|]. intros x Hx. apply (good_bind _ _ _ _ IH). intros l [L _]. cbn. split; [constructor; assumption|]. discriminate.
  Qed.
  Definition sufx (s : str) : Prop := (exists a, T = a ++ s) /\ length s < bnd.
  Lemma sufx_y at_ e s ps s' : y at_ e s ps s' -> sufx s -> sufx s'.
  Proof.
    intros Y [[a A] L]. apply yields_suffix in Y as [x ->]. split; [exists (a ++ x); rewrite <- app_assoc; exact A|].
    rewrite app_length in L. lia.
  Qed.
  Lemma sufx_skip at_ s : sufx s -> sufx (skip selector_grammar at_ s).
  Proof.
    intros [[a A] L]. destruct (skip_suffix selector_grammar at_ s) as [x X]. split; [exists (a ++ x); rewrite <- app_assoc, <- X; exact A|].
    assert (K := f_equal (@length ascii) X). rewrite app_length in K. lia.
  Qed.
  Definition reads (q : srule) (P : spair -> Prop) : Prop :=
    forall s ps s', y false (call q) s ps s' -> sufx s -> exists p, ps = [p] /\ p_rule p = q /\ P p.
  Lemma reads_list sep q P s ps s' : reads q P -> y false (list_of sep (call q)) s ps s' -> sufx s ->
    ps <> [] /\ Forall (fun p => p_rule p = q /\ P p) ps.
  Proof.
    intros RD Y S. apply yseq in Y as (p1 & s1 & p2 & -> & A & B).
    assert (S1 := sufx_skip false _ (sufx_y _ _ _ _ _ A S)). destruct (RD _ _ _ A S) as (p & -> & E & H). split; [discriminate|].
    constructor; [auto|].
    assert (ONE : forall s ps s', y false (PSeq (tok sep) (call q)) s ps s' -> sufx s -> Forall (fun p => p_rule p = q /\ P p) ps).
    { intros u us u' Y1 U. apply yseq in Y1 as (q1 & t1 & q2 & -> & C & D). assert (C' := C). apply ystr in C' as (-> & _).
      destruct (RD _ _ _ D (sufx_skip _ _ (sufx_y _ _ _ _ _ C U))) as (x & -> & X1 & X2). cbn. auto. }
    assert (M : forall s ps s', y false (PMore (PSeq (tok sep) (call q))) s ps s' -> sufx s -> Forall (fun p => p_rule p = q /\ P p) ps).
    { apply (yields_more_ind _ _ _ (fun s ps s' => sufx s -> Forall (fun p => p_rule p = q /\ P p) ps)); [intros; constructor|].
      intros u p2' u1 p3 u2 Y1 Y2 IH U. apply Forall_app. split; [exact (ONE _ _ _ Y1 (sufx_skip _ _ U))|].
      apply IH. exact (sufx_y _ _ _ _ _ Y1 (sufx_skip _ _ U)). }
    apply ystar in B as [(-> & _)|(q1 & t1 & q2 & -> & C & D)]; [constructor|]. apply Forall_app. split; [exact (ONE _ _ _ C S1)|].
    exact (M _ _ _ D (sufx_y _ _ _ _ _ C S1)).
  Qed.
  Lemma reads_identifier : reads S_identifier (fun p => p_inner p = [] /\ short_identifier (p_text p)).
  Proof. intros s ps s' Y _. apply y_identifier in Y as (n & _ & S & ->). eexists. split; [reflexivity|]. auto. Qed.
  Lemma good_ident n : short_identifier n -> good short_identifier (ident_from_str n).
  Proof. intros S. rewrite (short_from_str n S). exact S. Qed.
  Lemma good_ident_unwrap n : short_identifier n -> good short_identifier (unwrap_result (ident_from_str n)).
  Proof. intros S. rewrite (short_from_str n S). exact S. Qed.

  (** *** Values *)
  Notation value_parsed := (value_parsed f64_parse).
  Lemma fold_nonneg d : all_digits d -> forall v, (0 <= v)%Z -> (0 <= fold_left dec_step d v)%Z.
  Proof.
    induction 1 as [|c d C D IH]; intros v V; cbn [fold_left]; [exact V|]. apply IH. unfold dec_step.
    unfold is_digit, in_range in C. apply andb_true_iff in C as [C _]. apply N.leb_le in C. unfold ch_N in C. lia.
  Qed.
  Lemma good_int sign n : (sign = [] \/ sign = lit "-") -> whole n -> match i64_from_str (sign ++ n) with
    | Some z => (-9223372036854775808 <= z <= 9223372036854775807)%Z | None => not_i64 (sign ++ n) end.
  Proof.
    intros S W. assert (D := whole_digits _ W). assert (P := fold_nonneg _ D 0%Z ltac:(lia)).
    assert (NB : (digits_value n > (if str_eqb sign [] then 9223372036854775807 else 9223372036854775808))%Z -> not_i64 (sign ++ n)).
    { intros B. exists sign, n, []. rewrite app_nil_r. split; [reflexivity|]. split; [exact S|]. split; [exact W|]. right. split; [reflexivity|exact B]. }
    assert (V : digits_value n = fold_left dec_step n 0%Z) by reflexivity.
    destruct S as [-> | ->].
    - rewrite app_nil_l in *. rewrite (i64_of_whole n W). cbv zeta. destruct (_ && _)%bool eqn:B.
      + apply andb_true_iff in B as [B1 B2]. apply Z.leb_le in B1, B2. unfold i64_min, i64_max in *. lia.
      + apply NB. change (str_eqb [] []) with true. cbv iota. rewrite V. apply andb_false_iff in B. unfold i64_min, i64_max in B. rewrite !Z.leb_gt in B. lia.
    - change (i64_from_str (lit "-" ++ n)) with
        (match match n with [] => None | _ => digits_val n 0 end with
         | Some z => if ((i64_min <=? - z) && (- z <=? i64_max))%Z then Some (- z)%Z else None
         | None => None end) || unfold i64_from_str; cbn [lit list_ascii_of_string app].
      destruct n as [|c n']; [destruct (whole_nonempty _ W eq_refl)|]. rewrite (digits_val_fold _ D). 
      destruct (_ && _)%bool eqn:B.
      + apply andb_true_iff in B as [B1 B2]. apply Z.leb_le in B1, B2. unfold i64_min, i64_max in *. lia.
      + apply NB. change (str_eqb (lit "-") []) with false. cbv iota. rewrite V. apply andb_false_iff in B. unfold i64_min, i64_max in B. rewrite !Z.leb_gt in B. lia.
  Qed.
  Lemma exponent_no_dot e : exponent e -> existsb (Ascii.eqb ".") e = false.
  Proof.
    intros (c & sg & d & -> & C & S & _ & D). cbn [existsb]. rewrite existsb_app, (no_dot _ D).
    destruct C as [-> | ->]; destruct S as [-> | [-> | ->]]; reflexivity.
  Qed.
  Lemma reads_value : reads S_value (fun p => good value_parsed (parse_value f64_parse p)).
  Proof.
    intros s ps s' Y SX. apply ycall in Y as (qs & -> & Y). cbn [fst snd selector_rule sub_atomic PAlts seen] in *.
    eexists. split; [reflexivity|]. split; [reflexivity|]. unfold parse_value. cbn [p_inner].
    apply yalt in Y as [Y|Y]; [|apply yalt in Y as [Y|Y]].
    - apply y_text in Y as (q & t & i & NE & Q & ->). cbn [next rbind p_rule p_text good].
      replace (firstn _ _) with t; [split; assumption|]. cbn [length skipn]. rewrite app_length. cbn [length].
      replace (S (length t + 1) - 2) with (length t + 0) by lia. rewrite firstn_app_2. cbn [firstn]. symmetry. apply app_nil_r.
    - apply y_number in Y as (sign & n & frac & exp & S & W & F & E & -> & ->). cbn [next rbind p_rule p_text].
      rewrite !existsb_app, (no_dot _ (whole_digits _ W)).
      replace (existsb (Ascii.eqb ".") sign) with false by (destruct S as [-> | ->]; reflexivity). cbn [orb].
      destruct F as [-> | (d & -> & NE & D)].
      + cbn [existsb app orb]. destruct E as [-> | E].
        * cbn [existsb]. rewrite app_nil_r. assert (G := good_int sign n S W). destruct (i64_from_str (sign ++ n)) as [z|]; [exact G|].
          destruct SX as [[a A] _]. exists a, (sign ++ n), s'. split; [|exact G]. rewrite A. cbn [app]. rewrite app_nil_r. reflexivity.
        * rewrite (exponent_no_dot _ E). 
          assert (B : bad).
          { destruct SX as [[a A] _]. exists a, (sign ++ n ++ exp), s'. split; [exact A|]. exists sign, n, exp. auto. }
          destruct (i64_from_str (sign ++ n ++ exp)) as [z|] eqn:EI; [|exact B]. cbn. 
          revert EI. unfold i64_from_str. destruct (match sign ++ n ++ exp with [] => _ | _ => _ end) as [z'|]; [|discriminate].
          destruct (_ && _)%bool eqn:BB; [|discriminate]. intros [= <-]. apply andb_true_iff in BB as [B1 B2]. apply Z.leb_le in B1, B2. unfold i64_min, i64_max in *. lia.
      + replace (existsb (Ascii.eqb ".") ("."%char :: d)) with true by reflexivity. cbn [orb good SelectorSpec.value_parsed].
        exists (sign ++ n ++ "."%char :: d), exp. split; [exists sign, n, d; auto|]. split; [exact E|]. f_equal.
        rewrite <- !app_assoc. reflexivity.
    - apply ycall in Y as (us & -> & Y). cbn [fst snd selector_rule sub_atomic PAlts seen next rbind p_rule p_inner] in *.
      apply yalt in Y as [Y|Y].
      + apply y_absolute in Y as (ids & n & NE & F & S & -> & _). cbn [next rbind p_rule p_text].
        assert (V : valid_id (SID (join ["."%char] ids) n None)).
        { repeat split; [|apply short_is_identifier, S]. exists ids. split; [exact NE|]. split; [|reflexivity].
          apply (Forall_impl _ short_is_identifier), F. }
        assert (E := sid_from_str_complete _ V). unfold id_text in E. cbn [sid_ns sid_name sid_member] in E. rewrite app_nil_r in E.
        rewrite E. cbn. split; [reflexivity|]. split; [exact S|]. exists ids. auto.
      + apply y_identifier in Y as (n & _ & S & ->). cbn [seen next rbind p_rule p_text]. rewrite (short_from_str _ S). exact S.
  Qed.

  (** *** Paths and keys *)
  Notation seg_ok := (segment_shaped value_parsed).
  Lemma reads_segment : reads S_path_segment (fun p => good seg_ok (parse_path_segment f64_parse p)).
  Proof.
    intros s ps s' Y SX. apply ycall in Y as (qs & -> & Y). cbn [fst snd selector_rule sub_atomic seen] in *.
    eexists. split; [reflexivity|]. split; [reflexivity|]. unfold parse_path_segment. cbn [p_inner].
    apply yalt in Y as [Y|Y].
    - destruct (reads_value _ _ _ Y SX) as (p & -> & R & G). cbn [next rbind]. rewrite R. apply (good_bind _ _ _ _ G). auto.
    - apply ycall in Y as (us & -> & Y). cbn [fst snd selector_rule sub_atomic PSeqs seen next rbind p_rule p_inner] in *.
      apply yseq in Y as (p1 & s1 & p2 & -> & A & Y). apply ystr in A as (-> & ->).
      apply yseq in Y as (p3 & s3 & p4 & -> & A & Y). apply y_identifier in A as (n & _ & S & ->). cbn [app seen next rbind p_text].
      apply (good_bind short_identifier); [apply good_ident_unwrap, S|]. auto.
  Qed.
  Lemma reads_path : reads S_path (fun p => good (fun l => l <> [] /\ Forall seg_ok l) (parse_path f64_parse [p])).
  Proof.
    intros s ps s' Y SX. apply ycall in Y as (qs & -> & Y). cbn [fst snd selector_rule sub_atomic seen] in *.
    eexists. split; [reflexivity|]. split; [reflexivity|]. cbn [parse_path p_rule p_inner].
    destruct (reads_list _ _ _ _ _ _ reads_segment Y SX) as [NE F].
    refine (good_bind _ _ _ _ (good_map seg_ok _ qs _) _).
    - eapply Forall_impl; [|exact F]. cbn. tauto.
    - intros l [L1 L2]. cbn. rewrite app_nil_r. auto.
  Qed.
  Notation key_ok := (key_shaped value_parsed).
  Lemma reads_key : reads S_key (fun p => good key_ok (parse_key f64_parse p)).
  Proof.
    intros s ps s' Y SX. apply ycall in Y as (qs & -> & Y). cbn [fst snd selector_rule sub_atomic seen] in *.
    eexists. split; [reflexivity|]. split; [reflexivity|]. unfold parse_key. cbn [p_inner].
    apply yseq in Y as (p1 & s1 & p2 & -> & A & Y). assert (S1 := sufx_skip false _ (sufx_y _ _ _ _ _ A SX)).
    apply y_identifier in A as (n & _ & S & ->). cbn [app seen next rbind p_rule p_text].
    apply (good_bind short_identifier); [apply good_ident_unwrap, S|]. intros m M.
    apply yopt in Y as [Y|(-> & _)]; [|cbn; split; [exact M|constructor]].
    apply yseq in Y as (p3 & s3 & p4 & -> & A & Y). assert (A' := A). apply ystr in A' as (-> & _).
    destruct (reads_path _ _ _ Y (sufx_skip _ _ (sufx_y _ _ _ _ _ A S1))) as (p & -> & R & G).
    cbn [app]. apply (good_bind _ _ _ _ G). intros l [_ L]. split; assumption.
  Qed.

  (** *** Comparisons *)
  Lemma y_token q x s ps s' : selector_rule q = (Normal, PStr x) -> y false (call q) s ps s' -> ps = [Pair q x []] /\ s = x ++ s'.
  Proof.
    intros E Y. apply ycall in Y as (qs & -> & Y). rewrite E in *. cbn [fst snd sub_atomic seen] in *. apply ystr in Y as (-> & ->).
    rewrite taken_whole. auto.
  Qed.
  Lemma reads_comparator : reads S_comparator (fun p => good comparator_printable (parse_comparator p)).
  Proof.
    intros s ps s' Y SX. apply ycall in Y as (qs & -> & Y). cbn [fst snd selector_rule sub_atomic seen PAlts] in *.
    eexists. split; [reflexivity|]. split; [reflexivity|]. unfold parse_comparator. cbn [p_rule p_text].
    assert (K : exists c, s = comparator_display c ++ s' /\ comparator_printable c).
    { unfold comparator_printable. apply yalt in Y as [Y|Y]; [|apply yalt in Y as [Y|Y]]; apply ycall in Y as (us & _ & Y); cbn [fst snd selector_rule sub_atomic PAlts] in Y.
      - apply yalt in Y as [Y|Y]; [apply (y_token _ (lit "=")) in Y as (_ & ->); [|reflexivity]; exists CmEqual; split; [reflexivity|split; discriminate]|].
        apply yalt in Y as [Y|Y]; [apply (y_token _ (lit "!=")) in Y as (_ & ->); [|reflexivity]; exists CmNotEqual; split; [reflexivity|split; discriminate]|].
        apply yalt in Y as [Y|Y]; [apply (y_token _ (lit "^=")) in Y as (_ & ->); [|reflexivity]; exists CmStartsWith; split; [reflexivity|split; discriminate]|].
        apply yalt in Y as [Y|Y]; [apply (y_token _ (lit "$=")) in Y as (_ & ->); [|reflexivity]; exists CmEndsWith; split; [reflexivity|split; discriminate]|].
        apply yalt in Y as [Y|Y]; [apply (y_token _ (lit "*=")) in Y as (_ & ->); [|reflexivity]; exists CmContains; split; [reflexivity|split; discriminate]|].
        apply (y_token _ (lit "?=")) in Y as (_ & ->); [|reflexivity]; exists CmExists; split; [reflexivity|split; discriminate].
      - apply yalt_not in Y as [Y|[N1 Y]]; [apply (y_token _ (lit ">")) in Y as (_ & ->); [|reflexivity]; exists CmGreater; split; [reflexivity|split; discriminate]|].
        apply yalt in Y as [Y|Y].
        { exfalso. apply (y_token _ (lit ">=")) in Y as (_ & ->); [|reflexivity].
          assert (Q := proj2 (tok_rule S_number_gt (lit ">") (lit "=" ++ s') eq_refl)). assert (Z := evals_fun _ _ _ _ _ _ N1 Q). discriminate Z. }
        apply yalt_not in Y as [Y|[N2 Y]]; [apply (y_token _ (lit "<")) in Y as (_ & ->); [|reflexivity]; exists CmLess; split; [reflexivity|split; discriminate]|].
        exfalso. apply (y_token _ (lit "<=")) in Y as (_ & ->); [|reflexivity].
        assert (Q := proj2 (tok_rule S_number_lt (lit "<") (lit "=" ++ s') eq_refl)). assert (Z := evals_fun _ _ _ _ _ _ N2 Q). discriminate Z.
      - apply yalt in Y as [Y|Y]; [apply (y_token _ (lit "{=}")) in Y as (_ & ->); [|reflexivity]; exists CmProjEqual; split; [reflexivity|split; discriminate]|].
        apply yalt in Y as [Y|Y]; [apply (y_token _ (lit "{!=}")) in Y as (_ & ->); [|reflexivity]; exists CmProjNotEqual; split; [reflexivity|split; discriminate]|].
        apply yalt in Y as [Y|Y]; [apply (y_token _ (lit "{<}")) in Y as (_ & ->); [|reflexivity]; exists CmProjSubset; split; [reflexivity|split; discriminate]|].
        apply (y_token _ (lit "{<<}")) in Y as (_ & ->); [|reflexivity]; exists CmProjProperSubset; split; [reflexivity|split; discriminate]. }
    destruct K as (c & -> & C). rewrite taken_whole. destruct c; exact C.
  Qed.

  (** Values and the suffix that may follow them. *)
  Lemma good_values {A} (Q : A -> Prop) (vq q : srule) (values value : srule -> bool) (f : spair -> result A) t qs sfx :
    values vq = true -> values S_case_suffix = false -> value q = true -> qs <> [] ->
    Forall (fun p => p_rule p = q /\ good Q (f p)) qs ->
    sfx = [] \/ (exists x i, sfx = [Pair S_case_suffix x i]) ->
    good (fun r : list A * bool => fst r <> [] /\ Forall Q (fst r)) (parse_values values value f (Pair vq t qs :: sfx)).
  Proof.
    intros V1 V2 V3 NE F S. cbn [parse_values p_rule p_inner]. rewrite V1.
    refine (good_bind _ _ _ _ (good_map Q _ qs _) _).
    - eapply Forall_impl; [|exact F]. intros p [R G]. cbv beta. rewrite R, V3. exact G.
    - intros l [L1 L2]. destruct S as [-> | (x & i & ->)]; cbn [parse_values p_rule].
      + cbn. rewrite app_nil_r. auto.
      + rewrite V2. cbn. rewrite app_nil_r. auto.
  Qed.
  Lemma y_suffix s ps s' : y false (POpt (call S_case_suffix)) s ps s' -> ps = [] \/ (exists x i, ps = [Pair S_case_suffix x i]).
  Proof.
    intros Y. apply yopt in Y as [Y|(-> & _)]; [|auto]. apply ycall in Y as (qs & -> & _). right. eexists. eexists. reflexivity.
  Qed.
  Lemma reads_comparison : reads S_attr_comparison (fun p => good (comparison_shaped value_parsed) (parse_attr_comparison f64_parse p)).
  Proof.
    intros s ps s' Y SX. apply ycall in Y as (qs & -> & Y). cbn [fst snd selector_rule sub_atomic seen PSeqs] in *.
    eexists. split; [reflexivity|]. split; [reflexivity|]. unfold parse_attr_comparison. cbn [p_inner].
    apply yseq in Y as (p1 & s1 & p2 & -> & A & Y). assert (S1 := sufx_skip false _ (sufx_y _ _ _ _ _ A SX)).
    destruct (reads_comparator _ _ _ A SX) as (c & -> & RC & GC). cbn [app next rbind].
    apply (good_bind _ _ _ _ GC). intros cmp C.
    apply yseq in Y as (p3 & s3 & p4 & -> & A2 & Y). apply ycall in A2 as (us & -> & A2). cbn [fst snd selector_rule sub_atomic seen] in *.
    destruct (reads_list _ _ _ _ _ _ reads_value A2 S1) as [NE F]. cbn [app].
    refine (good_bind _ _ _ _ (good_values value_parsed S_attr_values S_value _ _ _ _ us p4 eq_refl eq_refl eq_refl NE F (y_suffix _ _ _ Y)) _).
    intros [l b] [L1 L2]. cbn in *. split; [exact C|]. split; assumption.
  Qed.
  Lemma reads_attr : reads S_attr (fun p => good (attribute_shaped value_parsed) (parse_attr f64_parse p)).
  Proof.
    intros s ps s' Y SX. apply ycall in Y as (qs & -> & Y). cbn [fst snd selector_rule sub_atomic seen PSeqs] in *.
    eexists. split; [reflexivity|]. split; [reflexivity|]. unfold parse_attr. cbn [p_inner].
    apply yseq in Y as (p1 & s1 & p2 & -> & A & Y). assert (S1 := sufx_skip false _ (sufx_y _ _ _ _ _ A SX)). apply ystr in A as (-> & _).
    apply yseq in Y as (p3 & s3 & p4 & -> & A & Y). assert (S3 := sufx_skip false _ (sufx_y _ _ _ _ _ A S1)).
    destruct (reads_key _ _ _ A S1) as (k & -> & RK & GK). cbn [app]. rewrite RK. apply (good_bind _ _ _ _ GK). intros ky K.
    apply yseq in Y as (p5 & s5 & p6 & -> & A2 & Y). apply ystr in Y as (-> & _). rewrite app_nil_r.
    apply yopt in A2 as [A2|(-> & _)]; [|cbn; split; [exact K|exact I]].
    destruct (reads_comparison _ _ _ A2 S3) as (c & -> & RC & GC). rewrite RC. apply (good_bind _ _ _ _ GC). intros cmp C. split; assumption.
  Qed.

  (** *** Scoped attributes *)
  Notation sv_ok := (scoped_value_shaped value_parsed).
  Lemma reads_scoped_value : reads S_scoped_value (fun p => good sv_ok (parse_scoped_value f64_parse p)).
  Proof.
    intros s ps s' Y SX. apply ycall in Y as (qs & -> & Y). cbn [fst snd selector_rule sub_atomic seen] in *.
    eexists. split; [reflexivity|]. split; [reflexivity|]. unfold parse_scoped_value. cbn [p_inner].
    apply yalt in Y as [Y|Y].
    - destruct (reads_value _ _ _ Y SX) as (p & -> & R & G). cbn [next rbind]. rewrite R. apply (good_bind _ _ _ _ G). auto.
    - apply ycall in Y as (us & -> & Y). cbn [fst snd selector_rule sub_atomic PSeqs seen next rbind p_rule p_inner] in *.
      apply yseq in Y as (p1 & s1 & p2 & -> & A & Y). assert (S1 := sufx_skip false _ (sufx_y _ _ _ _ _ A SX)). apply ystr in A as (-> & _).
      apply yseq in Y as (p3 & s3 & p4 & -> & A & Y). apply ystr in Y as (-> & _).
      destruct (reads_path _ _ _ A S1) as (p & -> & R & G). cbn [app]. apply (good_bind _ _ _ _ G). auto.
  Qed.
  Lemma reads_assertion : reads S_scoped_assertion (fun p => good (assertion_shaped value_parsed) (parse_scoped_assertion f64_parse p)).
  Proof.
    intros s ps s' Y SX. apply ycall in Y as (qs & -> & Y). cbn [fst snd selector_rule sub_atomic seen PSeqs] in *.
    eexists. split; [reflexivity|]. split; [reflexivity|]. unfold parse_scoped_assertion. cbn [p_inner].
    apply yseq in Y as (p1 & s1 & p2 & -> & A & Y). assert (S1 := sufx_skip false _ (sufx_y _ _ _ _ _ A SX)).
    destruct (reads_scoped_value _ _ _ A SX) as (v & -> & RV & GV). cbn [app next rbind]. rewrite RV.
    apply (good_bind _ _ _ _ GV). intros lhs L.
    apply yseq in Y as (p3 & s3 & p4 & -> & A2 & Y). assert (S3 := sufx_skip false _ (sufx_y _ _ _ _ _ A2 S1)).
    destruct (reads_comparator _ _ _ A2 S1) as (c & -> & RC & GC). cbn [app next rbind].
    apply (good_bind _ _ _ _ GC). intros cmp C.
    apply yseq in Y as (p5 & s5 & p6 & -> & A3 & Y). apply ycall in A3 as (us & -> & A3). cbn [fst snd selector_rule sub_atomic seen] in *.
    destruct (reads_list _ _ _ _ _ _ reads_scoped_value A3 S3) as [NE F]. cbn [app].
    refine (good_bind _ _ _ _ (good_values sv_ok S_scoped_values S_scoped_value _ _ _ _ us p6 eq_refl eq_refl eq_refl NE F (y_suffix _ _ _ Y)) _).
    intros [l b] [L1 L2]. cbn in *. split; [exact L|]. split; [exact C|]. split; assumption.
  Qed.
  Lemma good_assertions key qs : qs <> [] -> match key with Some k => key_ok k | None => True end ->
    Forall (fun p => p_rule p = S_scoped_assertion /\ good (assertion_shaped value_parsed) (parse_scoped_assertion f64_parse p)) qs ->
    good (scoped_shaped value_parsed)
      (l <- map_result (fun q => match p_rule q with
                                 | S_scoped_assertion => parse_scoped_assertion f64_parse q
                                 | _ => unexpected "parse_selector_scoped_attr"
                                 end) qs ;;
       match l with [] => Panic | _ => Ok (Scoped key l) end).
  Proof.
    intros NE K F. refine (good_bind _ _ _ _ (good_map (assertion_shaped value_parsed) _ qs _) _).
    - eapply Forall_impl; [|exact F]. intros p [R G]. cbv beta. rewrite R. exact G.
    - intros l [L1 L2]. destruct l as [|a l]; [destruct (L2 NE eq_refl)|]. cbn. split; [exact K|]. split; [discriminate|exact L1].
  Qed.
  Lemma reads_scoped : reads S_scoped_attr (fun p => good (scoped_shaped value_parsed) (parse_scoped_attr f64_parse p)).
  Proof.
    intros s ps s' Y SX. apply ycall in Y as (qs & -> & Y). cbn [fst snd selector_rule sub_atomic seen PSeqs] in *.
    eexists. split; [reflexivity|]. split; [reflexivity|].
    apply yseq in Y as (p1 & s1 & p2 & -> & A & Y). assert (S1 := sufx_skip false _ (sufx_y _ _ _ _ _ A SX)). apply ystr in A as (-> & _).
    apply yseq in Y as (p3 & s3 & p4 & -> & A & Y). assert (S3 := sufx_skip false _ (sufx_y _ _ _ _ _ A S1)).
    apply yseq in Y as (p5 & s5 & p6 & -> & A5 & Y). assert (S5 := sufx_skip false _ (sufx_y _ _ _ _ _ A5 S3)). apply ystr in A5 as (-> & _).
    apply yseq in Y as (p7 & s7 & p8 & -> & A7 & Y). apply ystr in Y as (-> & _).
    apply ycall in A7 as (us & -> & A7). cbn [fst snd selector_rule sub_atomic seen] in *.
    destruct (reads_list _ _ _ _ _ _ reads_assertion A7 S5) as [NE F]. cbn [app].
    apply yopt in A as [A|(-> & _)].
    - destruct (reads_key _ _ _ A S1) as (k & -> & RK & GK). unfold parse_scoped_attr. cbn [p_inner app next rbind]. rewrite RK.
      apply (good_bind _ _ _ _ GK). intros ky K. cbn [next rbind p_rule p_inner]. apply (good_assertions (Some ky)); assumption.
    - unfold parse_scoped_attr. cbn [p_inner app next rbind p_rule p_inner]. apply (good_assertions None); auto.
  Qed.

  (** *** Expressions *)
  Lemma good_directed t t2 r l : l <> [] -> Forall (fun p => p_rule p = S_identifier /\ p_inner p = [] /\ short_identifier (p_text p)) l ->
    good (fun l => l <> [] /\ Forall short_identifier l) (parse_directed (Pair r t [Pair S_directed_relationships t2 l])).
  Proof.
    intros NE F. unfold parse_directed. cbn [p_inner next rbind p_rule].
    assert (G := good_map short_identifier (fun q => match p_rule q with S_identifier => ident_from_str (p_text q)
                                                   | _ => unexpected "parse_selector_directed_relationships" end) l).
    assert (H : Forall (fun p => good short_identifier (match p_rule p with S_identifier => ident_from_str (p_text p)
                                                   | _ => unexpected "parse_selector_directed_relationships" end)) l).
    { eapply Forall_impl; [|exact F]. intros p (R & _ & S). rewrite R. apply good_ident, S. }
    specialize (G H). destruct (map_result _ l); cbn in *; tauto.
  Qed.
  Lemma y_directed q (o c : string) s ps s' : selector_rule q = (Normal, PSeqs [tok o; call S_directed_relationships; tok c]) ->
    y false (call q) s ps s' -> sufx s ->
    exists p, ps = [p] /\ p_rule p = q /\ good (fun l => l <> [] /\ Forall short_identifier l) (parse_directed p).
  Proof.
    intros E Y SX. apply ycall in Y as (qs & -> & Y). rewrite E in *. cbn [fst snd selector_rule sub_atomic seen PSeqs] in *.
    eexists. split; [reflexivity|]. split; [reflexivity|].
    apply yseq in Y as (p1 & s1 & p2 & -> & A & Y). assert (S1 := sufx_skip false _ (sufx_y _ _ _ _ _ A SX)). apply ystr in A as (-> & _).
    apply yseq in Y as (p3 & s3 & p4 & -> & A & Y). apply ystr in Y as (-> & _).
    apply ycall in A as (us & -> & A). cbn [fst snd selector_rule sub_atomic seen app] in *.
    destruct (reads_list _ _ _ _ _ _ reads_identifier A S1) as [NE F]. apply good_directed; assumption.
  Qed.
  Notation x_ok := (expr_shaped value_parsed).
  (** A selector, given what its expressions are. *)
  Lemma reads_selector :
    reads S_selector_expression (fun p => good x_ok (parse_expression f64_parse p)) ->
    reads S_selector (fun p => good (selector_shaped value_parsed) (parse_a_selector f64_parse p)).
  Proof.
    intros RD s ps s' Y SX. apply ycall in Y as (qs & -> & Y). cbn [fst snd selector_rule sub_atomic seen] in *.
    eexists. split; [reflexivity|]. split; [reflexivity|]. unfold parse_a_selector. cbn [p_rule p_inner].
    assert (K : qs <> [] /\ Forall (fun p => p_rule p = S_selector_expression /\ good x_ok (parse_expression f64_parse p)) qs).
    { apply yseq in Y as (p1 & s1 & p2 & -> & A & C). assert (S1 := sufx_skip false _ (sufx_y _ _ _ _ _ A SX)).
      destruct (RD _ _ _ A SX) as (p & -> & R & G). split; [discriminate|]. constructor; [auto|].
      assert (M : forall s ps s', y false (PMore (call S_selector_expression)) s ps s' -> sufx s ->
        Forall (fun p => p_rule p = S_selector_expression /\ good x_ok (parse_expression f64_parse p)) ps).
      { apply (yields_more_ind _ _ _ (fun s ps s' => sufx s -> Forall (fun p => p_rule p = S_selector_expression /\ good x_ok (parse_expression f64_parse p)) ps));
          [intros; constructor|].
        intros u q1 u1 q2 u2 Y1 Y2 IH U. destruct (RD _ _ _ Y1 (sufx_skip _ _ U)) as (x & -> & X1 & X2). cbn [app]. constructor; [auto|].
        apply IH. exact (sufx_y _ _ _ _ _ Y1 (sufx_skip _ _ U)). }
      apply ystar in C as [(-> & _)|(q1 & t1 & q2 & -> & C & D)]; [constructor|].
      destruct (RD _ _ _ C S1) as (x & -> & X1 & X2). cbn [app]. constructor; [auto|]. exact (M _ _ _ D (sufx_y _ _ _ _ _ C S1)). }
    destruct K as [NE F].
    assert (G := good_map x_ok (fun e => match p_rule e with S_selector_expression => parse_expression f64_parse e
                                         | _ => unexpected "parse_a_selector" end) qs).
    assert (H : Forall (fun p => good x_ok (match p_rule p with S_selector_expression => parse_expression f64_parse p
                                         | _ => unexpected "parse_a_selector" end)) qs).
    { eapply Forall_impl; [|exact F]. intros p [R P]. cbv beta. rewrite R. exact P. }
    specialize (G H). destruct (map_result _ qs); cbn in *; auto. destruct G as [G1 G2]. split; auto.
  Qed.
  Lemma good_shape_types s qs s' : y false (call S_shape_types) s qs s' -> exists p, qs = [p] /\ p_rule p = S_shape_types /\ good (fun _ => True) (parse_shape_types p).
  Proof.
    intros Y. apply ycall in Y as (us & -> & Y). cbn [fst snd selector_rule sub_atomic seen] in *. eexists. split; [reflexivity|]. split; [reflexivity|].
    unfold parse_shape_types. cbn [p_inner]. apply yalt in Y as [Y|Y].
    - apply ystr in Y as (-> & _). exact I.
    - apply y_identifier in Y as (n & _ & S & ->). cbn [seen p_rule p_text]. unfold shape_type_from_str. destruct (match_str _ n); exact I.
  Qed.
End Sound.

