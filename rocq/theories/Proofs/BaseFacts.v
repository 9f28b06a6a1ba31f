(** Facts about the basic string functions. *)
From Verif.Model Require Import Base.

Lemma str_eqb_eq a b : str_eqb a b = true <-> a = b.
Proof.
  revert b; induction a as [|x a IH]; destruct b as [|y b]; cbn; try (split; congruence).
  rewrite andb_true_iff, IH, Ascii.eqb_eq. split; [intros [-> ->]; reflexivity|].
  intros E; inversion E; auto.
Qed.
Lemma str_eqb_refl a : str_eqb a a = true.
Proof. apply str_eqb_eq; reflexivity. Qed.
Lemma str_eqb_neq a b : str_eqb a b = false <-> a <> b.
Proof. rewrite <- str_eqb_eq. destruct (str_eqb a b); split; congruence. Qed.
Lemma str_eqb_sym a b : str_eqb a b = str_eqb b a.
Proof.
  destruct (str_eqb a b) eqn:E.
  - apply str_eqb_eq in E; subst; symmetry; apply str_eqb_refl.
  - symmetry. apply str_eqb_neq. apply str_eqb_neq in E. congruence.
Qed.
Lemma str_eq_dec (a b : str) : {a = b} + {a <> b}.
Proof. destruct (str_eqb a b) eqn:E; [left; apply str_eqb_eq; assumption | right; apply str_eqb_neq; assumption]. Qed.

Lemma mem_str_In x l : mem_str x l = true <-> In x l.
Proof.
  unfold mem_str. rewrite existsb_exists. split.
  - intros (y & Hy & E). apply str_eqb_eq in E; subst; assumption.
  - intros H; exists x; split; [assumption|apply str_eqb_refl].
Qed.

(** ** Byte order *)
Lemma ch_N_inj a b : ch_N a = ch_N b -> a = b.
Proof. intros H. rewrite <- (ascii_N_embedding a), <- (ascii_N_embedding b). unfold ch_N in H. rewrite H. reflexivity. Qed.

Lemma str_cmp_eq a b : str_cmp a b = Eq <-> a = b.
Proof.
  revert b; induction a as [|x a IH]; destruct b as [|y b]; cbn; try (split; congruence).
  destruct (N.compare_spec (ch_N x) (ch_N y)) as [E|L|L].
  - apply ch_N_inj in E; subst. rewrite IH. split; [intros ->; reflexivity | intros E; inversion E; auto].
  - split; [discriminate|]. intros E; inversion E; subst. lia.
  - split; [discriminate|]. intros E; inversion E; subst. lia.
Qed.
Lemma str_cmp_refl a : str_cmp a a = Eq.
Proof. apply str_cmp_eq; reflexivity. Qed.
Lemma str_cmp_antisym a b : str_cmp b a = CompOpp (str_cmp a b).
Proof.
  revert b; induction a as [|x a IH]; destruct b as [|y b]; cbn; try reflexivity.
  rewrite (N.compare_antisym (ch_N x) (ch_N y)).
  destruct (N.compare (ch_N x) (ch_N y)); cbn; auto.
Qed.
Lemma str_cmp_lt_trans a b c : str_cmp a b = Lt -> str_cmp b c = Lt -> str_cmp a c = Lt.
Proof.
  revert b c; induction a as [|x a IH]; destruct b as [|y b]; destruct c as [|z c]; cbn; try congruence.
  destruct (N.compare_spec (ch_N x) (ch_N y)) as [E1|L1|L1]; try congruence;
  destruct (N.compare_spec (ch_N y) (ch_N z)) as [E2|L2|L2]; try congruence; intros H1 H2.
  - rewrite E1, E2, N.compare_refl. eauto.
  - rewrite E1. rewrite (proj2 (N.compare_lt_iff _ _) L2). reflexivity.
  - rewrite <- E2. rewrite (proj2 (N.compare_lt_iff _ _) L1). reflexivity.
  - rewrite (proj2 (N.compare_lt_iff (ch_N x) (ch_N z))); [reflexivity | lia].
Qed.
Lemma str_leb_refl a : str_leb a a = true.
Proof. unfold str_leb; rewrite str_cmp_refl; reflexivity. Qed.
Lemma str_leb_total a b : str_leb a b = true \/ str_leb b a = true.
Proof. unfold str_leb. rewrite (str_cmp_antisym a b). destruct (str_cmp a b); cbn; auto. Qed.
Lemma str_leb_trans a b c : str_leb a b = true -> str_leb b c = true -> str_leb a c = true.
Proof.
  unfold str_leb. destruct (str_cmp a b) eqn:E1; destruct (str_cmp b c) eqn:E2; try congruence; intros _ _.
  - apply str_cmp_eq in E1, E2; subst. rewrite str_cmp_refl; reflexivity.
  - apply str_cmp_eq in E1; subst. rewrite E2; reflexivity.
  - apply str_cmp_eq in E2; subst. rewrite E1; reflexivity.
  - rewrite (str_cmp_lt_trans _ _ _ E1 E2); reflexivity.
Qed.
Lemma str_leb_antisym a b : str_leb a b = true -> str_leb b a = true -> a = b.
Proof.
  unfold str_leb. rewrite (str_cmp_antisym a b). destruct (str_cmp a b) eqn:E; cbn; try congruence.
  intros _ _. apply str_cmp_eq; assumption.
Qed.

(** ** Lower-casing *)
Lemma ascii_sweep (P : ascii -> bool) :
  forallb (fun n => P (ascii_of_nat n)) (seq 0 256) = true -> forall c, P c = true.
Proof.
  intros H c. rewrite forallb_forall in H.
  rewrite <- (ascii_nat_embedding c). apply H. apply in_seq.
  pose proof (nat_ascii_bounded c). lia.
Qed.
Lemma lower_ch_idem c : lower_ch (lower_ch c) = lower_ch c.
Proof.
  apply Ascii.eqb_eq. revert c. apply ascii_sweep. vm_compute. reflexivity.
Qed.
Lemma lower_idem s : lower (lower s) = lower s.
Proof. unfold lower. rewrite map_map. apply map_ext. apply lower_ch_idem. Qed.
Lemma lower_app a b : lower (a ++ b) = lower a ++ lower b.
Proof. apply map_app. Qed.

(** ** Splitting and joining *)
Lemma split_on_nonempty c s : split_on c s <> [].
Proof. destruct s as [|x s]; cbn; [discriminate|]. destruct (Ascii.eqb x c); [discriminate|]. destruct (split_on c s); discriminate. Qed.

Lemma join_split c s : join [c] (split_on c s) = s.
Proof.
  induction s as [|x s IH]; cbn; [reflexivity|].
  destruct (Ascii.eqb x c) eqn:E.
  - apply Ascii.eqb_eq in E; subst.
    destruct (split_on c s) as [|p ps] eqn:Es; [exfalso; eapply split_on_nonempty; eauto|].
    cbn. rewrite <- IH. reflexivity.
  - destruct (split_on c s) as [|p ps] eqn:Es; [exfalso; eapply split_on_nonempty; eauto|].
    rewrite <- IH. destruct ps; reflexivity.
Qed.

Lemma split_on_no_sep c s : ~ In c s -> split_on c s = [s].
Proof.
  induction s as [|x s IH]; cbn; [reflexivity|]. intros H.
  destruct (Ascii.eqb x c) eqn:E; [apply Ascii.eqb_eq in E; subst; tauto|].
  rewrite IH by tauto. reflexivity.
Qed.
Lemma split_on_app_sep c a s : ~ In c a -> split_on c (a ++ c :: s) = a :: split_on c s.
Proof.
  induction a as [|x a IH]; cbn; intros H.
  - rewrite Ascii.eqb_refl. reflexivity.
  - destruct (Ascii.eqb x c) eqn:E; [apply Ascii.eqb_eq in E; subst; tauto|].
    rewrite IH by tauto. reflexivity.
Qed.
Lemma split_join c l : l <> [] -> Forall (fun p => ~ In c p) l -> split_on c (join [c] l) = l.
Proof.
  induction l as [|x l IH]; [congruence|]. intros _ HF. inversion HF; subst.
  destruct l as [|y l].
  - cbn. apply split_on_no_sep; assumption.
  - change (join [c] (x :: y :: l)) with (x ++ c :: join [c] (y :: l)).
    rewrite split_on_app_sep by assumption. rewrite IH; [reflexivity|discriminate|assumption].
Qed.
Lemma split_on_pieces c s : Forall (fun p => ~ In c p) (split_on c s).
Proof.
  induction s as [|x s IH]; cbn; [constructor; [cbn; tauto|constructor]|].
  destruct (Ascii.eqb x c) eqn:E; [constructor; [cbn; tauto|assumption]|].
  apply Ascii.eqb_neq in E.
  destruct (split_on c s); inversion IH; subst; constructor; cbn; auto; try constructor; try tauto.
Qed.

(** The first occurrence of a separator splits a string in one way only. *)
Lemma app_sep_inj (c : ascii) a b a' b' :
  ~ In c a -> ~ In c a' -> a ++ c :: b = a' ++ c :: b' -> a = a' /\ b = b'.
Proof.
  revert a'; induction a as [|x a IH]; destruct a' as [|y a']; cbn; intros H1 H2 E; inversion E; subst; try tauto.
  destruct (IH a') as [-> ->]; tauto.
Qed.

Lemma strip_prefix_app p s : strip_prefix p (p ++ s) = Some s.
Proof. induction p as [|x p IH]; cbn; [reflexivity|]. rewrite Ascii.eqb_refl; assumption. Qed.
Lemma strip_prefix_Some p s r : strip_prefix p s = Some r -> s = p ++ r.
Proof.
  revert s; induction p as [|x p IH]; destruct s as [|y s]; cbn; try congruence.
  destruct (Ascii.eqb x y) eqn:E; [|congruence]. apply Ascii.eqb_eq in E; subst.
  intros H; rewrite (IH _ H); reflexivity.
Qed.

Lemma option_eqb_refl {A} (e : A -> A -> bool) x : (forall a, e a a = true) -> option_eqb e x x = true.
Proof. destruct x; cbn; auto. Qed.

(** ** Decimal numbers *)
Definition dec_step (v : Z) (c : ascii) : Z := (v * 10 + (Z.of_N (N_of_ascii c) - 48))%Z.
Definition dec_val (s : str) : Z :=
  match s with
  | c :: s' => if Ascii.eqb c "-" then (- fold_left dec_step s' 0)%Z else fold_left dec_step s 0%Z
  | [] => 0%Z
  end.
Lemma digit_range d : (0 <= d < 10)%Z -> dec_step 0 (digit_ch d) = d /\ Ascii.eqb (digit_ch d) "-" = false.
Proof.
  intros D. assert (d = 0 \/ d = 1 \/ d = 2 \/ d = 3 \/ d = 4 \/ d = 5 \/ d = 6 \/ d = 7 \/ d = 8 \/ d = 9)%Z as Q by lia.
  destruct Q as [-> | [-> | [-> | [-> | [-> | [-> | [-> | [-> | [-> | ->]]]]]]]]]; split; reflexivity.
Qed.
Lemma dec_step_digit v d : (0 <= d < 10)%Z -> dec_step v (digit_ch d) = (v * 10 + d)%Z.
Proof. intros D. apply digit_range in D as [D _]. unfold dec_step in *. lia. Qed.
Lemma dec_digits_val f : forall n acc, (0 <= n < 2 ^ Z.of_nat f)%Z ->
  fold_left dec_step (dec_digits f n acc) 0%Z = fold_left dec_step acc n.
Proof.
  induction f as [|f IH]; intros n acc N; [cbn in N |- *; f_equal; lia|].
  assert (M : (0 <= n mod 10 < 10)%Z) by (apply Z.mod_pos_bound; lia).
  assert (Dm := Z.div_mod n 10 ltac:(lia)).
  cbn [dec_digits]. destruct (n / 10 =? 0)%Z eqn:E.
  - apply Z.eqb_eq in E. cbn [fold_left]. rewrite dec_step_digit by exact M. f_equal. lia.
  - rewrite IH.
    + cbn [fold_left]. rewrite dec_step_digit by exact M. f_equal. lia.
    + rewrite Nat2Z.inj_succ, Z.pow_succ_r in N by lia. lia.
Qed.
Lemma dec_digits_head f : forall n acc, exists d r, (0 <= d < 10)%Z /\ dec_digits (S f) n acc = digit_ch d :: r.
Proof.
  induction f as [|f IH]; intros n acc;
    assert (M : (0 <= n mod 10 < 10)%Z) by (apply Z.mod_pos_bound; lia).
  - exists (n mod 10)%Z, acc. split; [exact M|]. cbn. destruct (n / 10 =? 0)%Z; reflexivity.
  - remember (S f) as f1. cbn [dec_digits]. destruct (n / 10 =? 0)%Z; [eauto|]. subst f1. apply IH.
Qed.
Lemma nat_to_str_val n : (0 <= n)%Z -> fold_left dec_step (nat_to_str n) 0%Z = n.
Proof.
  intros N. unfold nat_to_str. rewrite dec_digits_val; [reflexivity|].
  rewrite Nat2Z.inj_succ, Z2Nat.id by apply Z.log2_nonneg.
  destruct (Z.eq_dec n 0) as [->|NZ]; [cbn; lia|]. assert (L := Z.log2_spec n ltac:(lia)). lia.
Qed.
Lemma int_to_str_val n : dec_val (int_to_str n) = n.
Proof.
  unfold int_to_str. destruct (n <? 0)%Z eqn:E.
  - apply Z.ltb_lt in E. cbn [dec_val]. change (Ascii.eqb "-" "-") with true. cbv iota. rewrite nat_to_str_val by lia. lia.
  - apply Z.ltb_ge in E. assert (V := nat_to_str_val n E). unfold nat_to_str in *.
    destruct (dec_digits_head (Z.to_nat (Z.log2 n)) n []) as (d & r & D & X). rewrite X in *.
    cbn [dec_val]. apply digit_range in D as [_ ->]. exact V.
Qed.
Lemma int_to_str_inj a b : int_to_str a = int_to_str b -> a = b.
Proof. intros E. rewrite <- (int_to_str_val a), E. apply int_to_str_val. Qed.
