(** Facts about the association-list model of [HashMap]. *)
From Verif.Model Require Import HashMap Identity.
From Verif.Spec Require Export MapSpec.
From Verif.Proofs Require Export BaseFacts IdentityFacts.
From Coq Require Import Permutation.

Record equivb {K} (keq : K -> K -> bool) : Prop := {
  eqv_refl : forall a, keq a a = true;
  eqv_sym : forall a b, keq a b = keq b a;
  eqv_trans : forall a b c, keq a b = true -> keq b c = true -> keq a c = true }.

Lemma str_eqb_equiv : equivb str_eqb.
Proof.
  split; [apply str_eqb_refl|apply str_eqb_sym|].
  intros a b c H1 H2. apply str_eqb_eq in H1, H2. subst. apply str_eqb_refl.
Qed.
Lemma ident_key_equiv `{Hasher} : equivb ident_key_eqb.
Proof.
  unfold ident_key_eqb. split.
  - intros a. rewrite Z.eqb_refl, ident_eqb_refl. reflexivity.
  - intros a b. rewrite Z.eqb_sym, ident_eqb_sym. reflexivity.
  - intros a b c. rewrite !andb_true_iff, !Z.eqb_eq. intros [E1 F1] [E2 F2].
    split; [congruence|eapply ident_eqb_trans; eauto].
Qed.
Lemma sid_key_equiv `{Hasher} : equivb sid_key_eqb.
Proof.
  unfold sid_key_eqb. split.
  - intros a. rewrite Z.eqb_refl, sid_eqb_refl. reflexivity.
  - intros a b. rewrite Z.eqb_sym, sid_eqb_sym. reflexivity.
  - intros a b c. rewrite !andb_true_iff, !Z.eqb_eq. intros [E1 F1] [E2 F2].
    split; [congruence|eapply sid_eqb_trans; eauto].
Qed.
#[global] Hint Resolve str_eqb_equiv ident_key_equiv sid_key_equiv : equivb.
Lemma sid_key_eqb_eq `{Hasher} a b : sid_key_eqb a b = true -> sid_eqb a b = true.
Proof. unfold sid_key_eqb. rewrite andb_true_iff. tauto. Qed.
Lemma ident_key_eqb_eq `{Hasher} a b : ident_key_eqb a b = true -> ident_eqb a b = true.
Proof. unfold ident_key_eqb. rewrite andb_true_iff. tauto. Qed.

Section F.
  Context {K V : Type} (keq : K -> K -> bool).

  Notation distinct := (distinct keq).
  Hypothesis EQ : equivb keq.
  Let krefl := eqv_refl _ EQ.
  Let ksym := eqv_sym _ EQ.
  Let ktrans := eqv_trans _ EQ.

  Lemma keq_cong a b c : keq a b = true -> keq c a = keq c b.
  Proof.
    intros E. destruct (keq c a) eqn:E1; destruct (keq c b) eqn:E2; try reflexivity.
    - rewrite (ktrans _ _ _ E1 E) in E2. discriminate.
    - rewrite ksym in E. rewrite (ktrans _ _ _ E2 E) in E1. discriminate.
  Qed.
  Lemma keq_cong_l a b c : keq a b = true -> keq a c = keq b c.
  Proof. intros E. rewrite (ksym a c), (ksym b c). apply keq_cong; assumption. Qed.

  Lemma hm_get_cong (m : list (K * V)) k k' : keq k k' = true -> hm_get keq k m = hm_get keq k' m.
  Proof.
    intros E. induction m as [|[k0 v0] m IH]; cbn; [reflexivity|].
    rewrite (keq_cong _ _ k0 E), IH. reflexivity.
  Qed.

  Lemma hm_get_insert (m : list (K * V)) k k' v :
    hm_get keq k' (hm_insert keq k v m) = if keq k k' then Some v else hm_get keq k' m.
  Proof.
    induction m as [|[k0 v0] m IH]; cbn; [reflexivity|].
    destruct (keq k0 k) eqn:E; cbn.
    - rewrite (keq_cong_l _ _ k' E). destruct (keq k k'); reflexivity.
    - rewrite IH. destruct (keq k0 k') eqn:E'; [|reflexivity].
      destruct (keq k k') eqn:E2; [|reflexivity].
      rewrite ksym in E2. rewrite (ktrans _ _ _ E' E2) in E. discriminate.
  Qed.

  Lemma hm_get_update (m : list (K * V)) k k' f :
    hm_get keq k' (hm_update keq k f m) = if keq k k' then option_map f (hm_get keq k' m) else hm_get keq k' m.
  Proof.
    induction m as [|[k0 v0] m IH]; cbn.
    - destruct (keq k k'); reflexivity.
    - destruct (keq k0 k) eqn:E; cbn.
      + rewrite (keq_cong_l _ _ k' E). destruct (keq k k'); reflexivity.
      + rewrite IH. destruct (keq k0 k') eqn:E'; [|reflexivity].
        destruct (keq k k') eqn:E2; [|reflexivity].
        rewrite ksym in E2. rewrite (ktrans _ _ _ E' E2) in E. discriminate.
  Qed.

  Lemma hm_get_Some_In (m : list (K * V)) k v :
    hm_get keq k m = Some v -> exists k', In (k', v) m /\ keq k' k = true.
  Proof.
    induction m as [|[k0 v0] m IH]; cbn; [discriminate|].
    destruct (keq k0 k) eqn:E; [injection 1 as <-; eauto|].
    intros G. destruct (IH G) as (k' & I & E'). eauto.
  Qed.
  Lemma hm_get_In (m : list (K * V)) k v : distinct m -> In (k, v) m -> hm_get keq k m = Some v.
  Proof.
    induction m as [|[k0 v0] m IH]; cbn; [tauto|]. intros [D1 D2] [E|I].
    - injection E as -> ->. rewrite krefl. reflexivity.
    - specialize (D1 _ _ I). rewrite ksym in D1. rewrite D1. auto.
  Qed.
  Lemma hm_get_In_key (m : list (K * V)) k k' v : distinct m -> In (k', v) m -> keq k' k = true -> hm_get keq k m = Some v.
  Proof. intros D I E. rewrite <- (hm_get_cong m _ _ E). apply hm_get_In; assumption. Qed.
  Lemma hm_get_None_In (m : list (K * V)) k : hm_get keq k m = None <-> forall k' v, In (k', v) m -> keq k' k = false.
  Proof.
    induction m as [|[k0 v0] m IH]; cbn; [split; [tauto|reflexivity]|].
    destruct (keq k0 k) eqn:E.
    - split; [discriminate|]. intros G. rewrite (G k0 v0) in E; [discriminate|auto].
    - rewrite IH. split.
      + intros G k' v [E'|I]; [injection E' as <- <-; assumption|eauto].
      + intros G k' v I. eauto.
  Qed.
  Lemma hm_get_key (m : list (K * V)) k v : In (k, v) m -> hm_get keq k m <> None.
  Proof. intros I E. rewrite hm_get_None_In in E. specialize (E _ _ I). rewrite krefl in E. discriminate. Qed.

  Lemma hm_insert_In (m : list (K * V)) k v k' v' :
    In (k', v') (hm_insert keq k v m) ->
    (In (k', v') m) \/ (v' = v /\ keq k' k = true /\ (k' = k \/ exists v0, In (k', v0) m)).
  Proof.
    induction m as [|[k0 v0] m IH]; cbn.
    - intros [E|[]]. injection E as <- <-. right. rewrite krefl. auto.
    - destruct (keq k0 k) eqn:E0; cbn; intros [E|I].
      + injection E as <- <-. right. eauto 6.
      + auto.
      + injection E as <- <-. auto.
      + destruct (IH I) as [I'|(-> & E & [->|(v1 & I')])]; auto; right; eauto 7.
  Qed.

  Lemma distinct_insert (m : list (K * V)) k v : distinct m -> distinct (hm_insert keq k v m).
  Proof.
    induction m as [|[k0 v0] m IH]; cbn; [intros _; split; [tauto|exact I]|].
    intros [D1 D2]. destruct (keq k0 k) eqn:E; cbn; [split; assumption|]. split; [|auto].
    intros k' v' I. apply hm_insert_In in I as [I|(-> & E' & [->|(v1 & I)])]; eauto.
  Qed.

  Lemma hm_update_fst (m : list (K * V)) k f : map fst (hm_update keq k f m) = map fst m.
  Proof.
    induction m as [|[k0 v0] m IH]; cbn; [reflexivity|]. destruct (keq k0 k); cbn; [reflexivity|]. f_equal; assumption.
  Qed.
  Lemma distinct_fst (m : list (K * V)) :
    distinct m <-> ForallOrdPairs (fun a b => keq b a = false) (map fst m).
  Proof.
    induction m as [|[k0 v0] m IH]; cbn; [split; constructor|]. rewrite IH. split.
    - intros [D1 D2]. constructor; [|assumption]. apply Forall_forall. intros x Hx.
      apply in_map_iff in Hx as ([k1 v1] & <- & I). cbn. eauto.
    - inversion 1 as [|? ? F D]; subst. split; [|assumption]. rewrite Forall_forall in F.
      intros k' v' I. apply F. apply in_map_iff. exists (k', v'). auto.
  Qed.
  Lemma distinct_update (m : list (K * V)) k f : distinct m -> distinct (hm_update keq k f m).
  Proof. rewrite !distinct_fst, hm_update_fst. auto. Qed.
  Lemma hm_update_In (m : list (K * V)) k f k' v' :
    In (k', v') (hm_update keq k f m) -> In (k', v') m \/ exists v, In (k', v) m /\ v' = f v /\ keq k' k = true.
  Proof.
    induction m as [|[k0 v0] m IH]; cbn; [tauto|]. destruct (keq k0 k) eqn:E0; cbn; intros [E|I].
    - injection E as <- <-. eauto 6.
    - auto.
    - injection E as <- <-. auto.
    - destruct (IH I) as [I'|(v & I' & -> & E)]; auto. right. eauto 6.
  Qed.

  Lemma hm_remove_In (m : list (K * V)) k e : In e (hm_remove keq k m) -> In e m.
  Proof.
    induction m as [|[k0 v0] m IH]; cbn; [tauto|]. destruct (keq k0 k); cbn; tauto.
  Qed.
  Lemma distinct_remove (m : list (K * V)) k : distinct m -> distinct (hm_remove keq k m).
  Proof.
    induction m as [|[k0 v0] m IH]; cbn; [tauto|]. intros [D1 D2]. destruct (keq k0 k); [assumption|]. cbn. split; [|auto].
    intros k' v' I. apply hm_remove_In in I. eauto.
  Qed.
  Lemma hm_get_remove (m : list (K * V)) k k' : distinct m ->
    hm_get keq k' (hm_remove keq k m) = if keq k k' then None else hm_get keq k' m.
  Proof.
    induction m as [|[k0 v0] m IH]; cbn; [destruct (keq k k'); reflexivity|]. intros [D1 D2].
    destruct (keq k0 k) eqn:E; cbn.
    - rewrite <- (keq_cong_l _ _ k' E). destruct (keq k0 k') eqn:E'; [|reflexivity].
      apply hm_get_None_In. intros k1 v1 I. rewrite <- (keq_cong _ _ k1 E'). eauto.
    - rewrite IH by assumption. destruct (keq k0 k') eqn:E'; [|reflexivity].
      destruct (keq k k') eqn:E2; [|reflexivity]. rewrite ksym in E2. rewrite (ktrans _ _ _ E' E2) in E. discriminate.
  Qed.

  Lemma hm_insert_same (m : list (K * V)) k v : hm_get keq k m = Some v -> hm_insert keq k v m = m.
  Proof.
    induction m as [|[k0 v0] m IH]; cbn; [discriminate|].
    destruct (keq k0 k); [injection 1 as <-; reflexivity|]. intros G. rewrite IH by assumption. reflexivity.
  Qed.
  Lemma hm_update_same (m : list (K * V)) k v : hm_get keq k m = Some v -> hm_update keq k (fun _ => v) m = m.
  Proof.
    induction m as [|[k0 v0] m IH]; cbn; [discriminate|].
    destruct (keq k0 k); [injection 1 as <-; reflexivity|]. intros G. rewrite IH by assumption. reflexivity.
  Qed.
  Lemma hm_insert_fresh (m : list (K * V)) k v : hm_get keq k m = None -> hm_insert keq k v m = m ++ [(k, v)].
  Proof.
    induction m as [|[k0 v0] m IH]; cbn; [reflexivity|]. destruct (keq k0 k); [discriminate|].
    intros G. rewrite IH by assumption. reflexivity.
  Qed.

  Lemma distinct_perm (m m' : list (K * V)) : Permutation m m' -> distinct m -> distinct m'.
  Proof.
    induction 1 as [|[k v] m m' P IH|[k v] [k' v'] m|m1 m2 m3 P1 IH1 P2 IH2]; cbn.
    - auto.
    - intros [D1 D2]. split; [|auto]. intros k' v' I. apply (Permutation_in _ (Permutation_sym P)) in I. eauto.
    - intros [D1 [D2 D3]]. split; [|split; [|assumption]].
      + intros k1 v1 [E|I]; [injection E as <- <-|eauto]. rewrite ksym. eapply D1. left; reflexivity.
      + intros k1 v1 I. eapply D1. right; eassumption.
    - auto.
  Qed.
  Lemma hm_get_perm (m m' : list (K * V)) k : Permutation m m' -> distinct m -> hm_get keq k m = hm_get keq k m'.
  Proof.
    intros P D. assert (D' := distinct_perm _ _ P D).
    destruct (hm_get keq k m) as [v|] eqn:E.
    - apply hm_get_Some_In in E as (k' & I & E'). symmetry. eapply hm_get_In_key; eauto.
      eapply Permutation_in; eauto.
    - symmetry. apply hm_get_None_In. intros k' v I. rewrite hm_get_None_In in E.
      eapply E. eapply Permutation_in; [apply Permutation_sym; eassumption|eassumption].
  Qed.

  Lemma hm_get_remove_len (m : list (K * V)) k : hm_get keq k m <> None -> length m = S (length (hm_remove keq k m)).
  Proof.
    induction m as [|[k0 v0] m IH]; cbn; [congruence|]. destruct (keq k0 k); [reflexivity|]. intros G. cbn. rewrite <- IH by assumption. reflexivity.
  Qed.
  Lemma distinct_app_one (m : list (K * V)) k v : distinct m -> hm_get keq k m = None -> distinct (m ++ [(k, v)]).
  Proof. intros D G. rewrite <- (hm_insert_fresh m k v G). apply distinct_insert; assumption. Qed.
End F.


(** Pigeonhole for maps with distinct keys (possibly with values of different types). *)
Section Pigeon.
  Context {K V W : Type} (keq : K -> K -> bool) (EQ : equivb keq).
  Lemma keys_subset_length (a : list (K * V)) : forall (b : list (K * W)),
    distinct keq a -> distinct keq b ->
    (forall k v, In (k, v) a -> hm_get keq k b <> None) -> length a <= length b.
  Proof.
    induction a as [|[k v] a IH]; cbn; intros b Da Db S; [lia|].
    destruct Da as [D1 D2]. rewrite (hm_get_remove_len keq b k) by (eapply S; eauto).
    apply le_n_S, IH; auto using distinct_remove.
    intros k' v' I. rewrite hm_get_remove by assumption.
    specialize (D1 _ _ I). rewrite (eqv_sym _ EQ) in D1. rewrite D1. eauto.
  Qed.
  Lemma keys_subset_eq (a : list (K * V)) : forall (b : list (K * W)),
    distinct keq a -> distinct keq b -> length a = length b ->
    (forall k v, In (k, v) a -> hm_get keq k b <> None) ->
    forall k w, In (k, w) b -> hm_get keq k a <> None.
  Proof.
    induction a as [|[k0 v0] a IH]; cbn; intros b Da Db L S k w I.
    - destruct b; [destruct I|discriminate].
    - destruct Da as [D1 D2]. destruct (keq k0 k) eqn:E; [discriminate|].
      eapply (IH (hm_remove keq k0 b)); auto using distinct_remove.
      + rewrite (hm_get_remove_len keq b k0) in L by (eapply S; eauto). lia.
      + intros k' v' I'. rewrite hm_get_remove by assumption.
        specialize (D1 _ _ I'). rewrite (eqv_sym _ EQ) in D1. rewrite D1. eauto.
      + assert (G : hm_get keq k (hm_remove keq k0 b) = Some w).
        { rewrite hm_get_remove by assumption. rewrite E. apply hm_get_In; assumption. }
        apply hm_get_Some_In in G as (k' & I' & E').
        assert (Hk : k' = k).
        { clear - I' E' I Db EQ. apply hm_remove_In in I'.
          revert Db I' I. induction b as [|[k1 w1] b IHb]; cbn; [tauto|]. intros [B1 B2] [X|X] [Y|Y].
          - congruence.
          - injection X as -> ->. specialize (B1 _ _ Y). rewrite (eqv_sym _ EQ) in B1. congruence.
          - injection Y as -> ->. specialize (B1 _ _ X). congruence.
          - auto. }
        subst k'. exact I'.
  Qed.
End Pigeon.
