(** Value equality: the transcribed [==] decides [same_value]. *)
From Verif.Model Require Import SemModel.
From Verif.Spec Require Import ModelSpec.
From Verif.Proofs Require Import HashMapFacts.

Section ValueInd.
  Variable P : value -> Prop.
  Hypothesis HA : forall l, Forall P l -> P (VArray l).
  Hypothesis HO : forall m, Forall (fun kv => P (snd kv)) m -> P (VObject m).
  Hypothesis HN : forall n, P (VNumber n).
  Hypothesis HB : forall b, P (VBoolean b).
  Hypothesis HS : forall s, P (VString s).
  Hypothesis HNo : P VNone.
  Fixpoint value_ind' (v : value) : P v :=
    match v with
    | VArray l => HA l ((fix go (l : list value) : Forall P l :=
                           match l with
                           | [] => Forall_nil _
                           | x :: l' => Forall_cons _ (value_ind' x) (go l')
                           end) l)
    | VObject m => HO m ((fix go (m : list (str * value)) : Forall (fun kv => P (snd kv)) m :=
                            match m with
                            | [] => Forall_nil _
                            | x :: m' => Forall_cons _ (value_ind' (snd x)) (go m')
                            end) m)
    | VNumber n => HN n
    | VBoolean b => HB b
    | VString s => HS s
    | VNone => HNo
    end.
End ValueInd.

Lemma f64_eqb_spec a b : f64_eqb a b = true <-> same_float a b.
Proof.
  unfold f64_eqb, same_float. rewrite !andb_true_iff, !negb_true_iff, orb_true_iff, Z.eqb_eq, andb_true_iff. tauto.
Qed.

Lemma value_eqb_array l r :
  value_eqb (VArray l) (VArray r) =
  match l, r with
  | [], [] => true
  | x :: l', y :: r' => value_eqb x y && value_eqb (VArray l') (VArray r')
  | _, _ => false
  end.
Proof. destruct l, r; reflexivity. Qed.

Lemma opt_rel_none {A B} (R : A -> B -> Prop) x y : opt_rel R x y -> (x = None <-> y = None).
Proof. destruct x, y; cbn; intros H; split; congruence || tauto. Qed.

(** Characterisation of [HashMap == HashMap] by lookups. *)
Lemma hm_eqb_spec {K V} keq (EQ : equivb keq) (e : V -> V -> bool) (R : V -> V -> Prop) (a b : list (K * V)) :
  distinct keq a -> distinct keq b ->
  (forall k v w, In (k, v) a -> hm_get keq k b = Some w -> (e v w = true <-> R v w)) ->
  (hm_eqb keq e a b = true <-> forall k, opt_rel R (hm_get keq k a) (hm_get keq k b)).
Proof.
  intros Da Db He. unfold hm_eqb. rewrite andb_true_iff, Nat.eqb_eq, forallb_forall. split.
  - intros [L F] k. destruct (hm_get keq k a) as [v|] eqn:Ea.
    + apply hm_get_Some_In in Ea as (k' & I & E). specialize (F _ I). cbn in F.
      rewrite (hm_get_cong keq EQ b _ _ E) in F. destruct (hm_get keq k b) as [w|] eqn:Eb; [|discriminate].
      cbn. apply (He k' v w); auto. rewrite (hm_get_cong keq EQ b _ _ E). assumption.
    + destruct (hm_get keq k b) as [w|] eqn:Eb; cbn; [|exact I].
      apply hm_get_Some_In in Eb as (k' & I & E). rewrite <- (hm_get_cong keq EQ a _ _ E) in Ea.
      eapply (keys_subset_eq keq EQ a b) in Ea; eauto.
      intros k0 v0 I0 C. specialize (F _ I0). cbn in F. rewrite C in F. discriminate.
  - intros F. split.
    + apply Nat.le_antisymm; eapply (keys_subset_length keq EQ); eauto; intros k v I C; specialize (F k);
        rewrite C in F; apply (hm_get_In keq EQ) in I; auto; rewrite I in F; exact F.
    + intros [k v] I. specialize (F k). rewrite (hm_get_In keq EQ a k v Da I) in F. cbn in *.
      destruct (hm_get keq k b) as [w|] eqn:Eb; [|destruct F]. apply (He k v w); auto.
Qed.

Lemma value_eqb_spec a : forall b, value_ok a -> value_ok b -> (value_eqb a b = true <-> same_value a b).
Proof.
  induction a as [l IH|m IH|n|x|s|] using value_ind'; intros b Wa Wb.
  - destruct b as [r| | | | |]; try (split; [discriminate|inversion 1]).
    assert (Wl : Forall value_ok l) by (inversion Wa; assumption).
    assert (Wr : Forall value_ok r) by (inversion Wb; assumption). clear Wa Wb.
    assert (G : value_eqb (VArray l) (VArray r) = true <-> Forall2 same_value l r).
    { revert r Wr. induction l as [|x l IHl]; intros [|y r] Wr; rewrite value_eqb_array.
      - split; constructor.
      - split; [discriminate|inversion 1].
      - split; [discriminate|inversion 1].
      - inversion IH; subst. inversion Wl; subst. inversion Wr; subst.
        rewrite andb_true_iff, IHl by auto. rewrite H1 by auto. split; [intros []; constructor; auto|inversion 1; auto]. }
    rewrite G. split; [constructor; auto|inversion 1; auto].
  - destruct b as [|r| | | |]; try (split; [discriminate|inversion 1]).
    assert (Wl : distinct str_eqb m /\ Forall (fun kv => value_ok (snd kv)) m) by (inversion Wa; auto).
    assert (Wr : distinct str_eqb r /\ Forall (fun kv => value_ok (snd kv)) r) by (inversion Wb; auto).
    destruct Wl as [Dl Wl], Wr as [Dr Wr]. clear Wa Wb.
    change (value_eqb (VObject m) (VObject r)) with (hm_eqb str_eqb value_eqb m r).
    rewrite (hm_eqb_spec str_eqb str_eqb_equiv value_eqb same_value m r Dl Dr).
    + split.
      * intros F. constructor.
        -- intros k. exact (opt_rel_none _ _ _ (F k)).
        -- intros k v w E1 E2. specialize (F k). unfold lookup in *. rewrite E1, E2 in F. exact F.
      * inversion 1 as [|? ? N S| | | | |]; subst. intros k. specialize (N k). specialize (S k). unfold lookup in *.
        destruct (hm_get str_eqb k m), (hm_get str_eqb k r); cbn; auto.
        -- destruct N as [_ N]. specialize (N eq_refl). discriminate.
        -- destruct N as [N _]. specialize (N eq_refl). discriminate.
    + intros k v w I G. rewrite Forall_forall in IH. apply (IH (k, v) I).
      * rewrite Forall_forall in Wl. exact (Wl (k, v) I).
      * apply hm_get_Some_In in G as (k' & I' & _). rewrite Forall_forall in Wr. exact (Wr (k', w) I').
  - destruct b; try (split; [discriminate|inversion 1]). cbn.
    destruct n as [x|x], n0 as [y|y]; cbn; try (split; [discriminate|inversion 1]).
    + rewrite Z.eqb_eq. split; [intros ->; constructor|inversion 1; auto].
    + rewrite f64_eqb_spec. split; [constructor; auto|inversion 1; auto].
  - destruct b; try (split; [discriminate|inversion 1]). cbn. rewrite Bool.eqb_true_iff.
    split; [intros ->; constructor|inversion 1; auto].
  - destruct b; try (split; [discriminate|inversion 1]). cbn. rewrite str_eqb_eq.
    split; [intros ->; constructor|inversion 1; auto].
  - destruct b; try (split; [discriminate|inversion 1]). cbn. split; [constructor|auto].
Qed.

Lemma same_float_sym a b : same_float a b -> same_float b a.
Proof. unfold same_float. intuition congruence. Qed.
Lemma same_value_sym a : forall b, value_ok a -> value_ok b -> same_value a b -> same_value b a.
Proof.
  induction a as [l IH|m IH|n|x|s|] using value_ind'; intros b Wa Wb S; inversion S; subst; try constructor;
    try (apply same_float_sym; assumption).
  - assert (Wl : Forall value_ok l) by (inversion Wa; assumption).
    assert (Wr : Forall value_ok r) by (inversion Wb; assumption). clear Wa Wb S.
    match goal with h : Forall2 _ l r |- _ => induction h end; [constructor|].
    inversion IH; subst. inversion Wl; subst. inversion Wr; subst. constructor; auto.
  - intros k. symmetry. auto.
  - intros k v w E1 E2.
    assert (Fa : Forall (fun kv => value_ok (snd kv)) m) by (inversion Wa; assumption).
    assert (Fb : Forall (fun kv => value_ok (snd kv)) r) by (inversion Wb; assumption).
    assert (E2' := E2). apply hm_get_Some_In in E2' as (k' & I & _).
    assert (E1' := E1). apply hm_get_Some_In in E1' as (k1 & I1 & _).
    rewrite Forall_forall in IH, Fa, Fb. apply (IH _ I); [exact (Fa _ I)|exact (Fb _ I1)|eauto].
Qed.

(** Values without a NaN inside are equal to themselves. *)
Inductive nan_free : value -> Prop :=
| nf_array l : Forall nan_free l -> nan_free (VArray l)
| nf_object m : Forall (fun kv => nan_free (snd kv)) m -> nan_free (VObject m)
| nf_int n : nan_free (VNumber (NInteger n))
| nf_float b : f64_is_nan b = false -> nan_free (VNumber (NFloat b))
| nf_bool b : nan_free (VBoolean b)
| nf_string s : nan_free (VString s)
| nf_none : nan_free VNone.
Lemma same_value_refl a : nan_free a -> same_value a a.
Proof.
  induction a as [l IH|m IH|n|x|s|] using value_ind'; intros Wa; inversion Wa; subst; try (constructor; fail).
  - constructor. clear Wa. induction l as [|x l IHl]; [constructor|]. inversion IH; subst. inversion H0; subst. constructor; auto.
  - constructor; [tauto|]. intros k v w E1 E2. assert (v = w) by congruence. subst w.
    apply hm_get_Some_In in E1 as (k' & I & _). rewrite Forall_forall in IH, H0. apply (IH _ I). exact (H0 _ I).
  - constructor. unfold same_float. auto.
Qed.
