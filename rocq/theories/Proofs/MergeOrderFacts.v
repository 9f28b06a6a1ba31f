(** Merging a model with the same model read in another order. *)
From Verif.Model Require Import SemModel.
From Verif.Spec Require Import ModelSpec ReorderSpec.
From Verif.Proofs Require Import BaseFacts IdentityFacts HashMapFacts ValueFacts ShapeFacts ModelFacts MergeFacts ReorderFacts ReorderEquiv.

Lemma same_value_nan_free v : value_ok v -> same_value v v -> nan_free v.
Proof.
  induction v as [l IH|l IH|n|x|s|] using value_ind'; intros O S; inversion S as [? ? F|? ? A B|z|f g Fl|z|z|]; subst; inversion O as [? Fo|? D Fo| | | |]; subst; try constructor.
  - rewrite Forall_forall in IH, Fo |- *. intros x I. apply IH; [exact I|apply Fo, I|].
    clear - F I. assert (X : forall l r : list value, Forall2 same_value l r -> l = r -> forall x, In x l -> same_value x x).
    { intros l0 r0 F0. induction F0 as [|u w l0 r0 Suw F0 IH0]; intros E y []; injection E as E1 E2; subst; [assumption|eauto]. }
    exact (X l l F eq_refl x I).
  - rewrite Forall_forall in IH, Fo |- *. intros [k x] I. apply (IH _ I); [apply (Fo _ I)|]. cbn.
    assert (G : lookup k l = Some x) by (apply (hm_get_In str_eqb); auto with equivb). exact (B k x x G G).
  - destruct Fl as [Fl _] || idtac. exact Fl || tauto.
Qed.

Section WithHasher.
  Context `{Hasher}.
  Lemma merge_traits_order i v w :
    (match v with Some x => merge_stable x | None => True end) -> tv_ok v -> reorder_trait_value v w -> merge_traits i v w = Ok v.
  Proof.
    destruct v as [v|], w as [w|]; cbn; intros S O R; try contradiction; [|reflexivity]. destruct S as [S A].
    assert (E : value_eqb v w = true) by (apply reorder_value_eqb; [exact O|apply same_value_nan_free; assumption|exact R]).
    destruct v as [l| | | | |]; try (destruct w; cbn [merge_traits option_eqb]; rewrite E; reflexivity).
    rewrite (A _ eq_refl) in *. inversion R as [? r F| |]; subst; [inversion F; subst|]; reflexivity.
  Qed.
  Lemma append_traits_order ts : traits_ok ts -> stable_traits ts -> forall ts', reorder_traits ts ts' -> append_traits ts ts' = (ts, Ok tt).
  Proof.
    intros [D F] S ts' (l & P & F2). unfold stable_traits in S. rewrite Forall_forall in F, S.
    assert (I : incl l ts) by (intros x Ix; eapply Permutation_in; [apply Permutation_sym, P|exact Ix]). clear P.
    induction F2 as [|[i v] [i' w] l ts' [Ei Rv] F2 IH]; cbn; [reflexivity|]. cbn [fst snd] in Ei, Rv. subst i'.
    assert (Iv : In (i, v) ts) by (apply I; left; reflexivity).
    unfold apply_with_value. destruct (F _ Iv) as [M W]. cbn in M, W. apply sid_is_member_false in M. rewrite M.
    assert (G : trait_named i ts = Some v) by (apply hm_get_In; auto with equivb). rewrite G.
    rewrite (merge_traits_order i v w); [|exact (S _ Iv)|exact W|exact Rv]. rewrite (hm_insert_same sid_key_eqb); [|assumption].
    apply IH. intros x Hx. apply I. right; assumption.
  Qed.
  Lemma reorder_members_equal a b : distinct ident_key_eqb a -> reordered reorder_member a b -> members_equal a b = Ok true.
  Proof.
    intros D R. unfold members_equal.
    assert (L : length a = length b) by (destruct R as (a' & P & F); rewrite (Permutation_length P); apply (forall2_length _ _ _ F)).
    rewrite L, Nat.eqb_refl.
    assert (X : forall ks, incl ks (hm_keys a) -> all_members_equal a b ks = Ok true).
    { induction ks as [|k ks IH]; intros I; cbn; [reflexivity|].
      pose proof (reordered_get ident_key_eqb ident_key_equiv _ _ _ k D R) as G. unfold su_member.
      assert (Ik : In k (hm_keys a)) by (apply I; left; reflexivity). unfold hm_keys in Ik. apply in_map_iff in Ik as ([k' x] & E & Ix). cbn in E. subst k'.
      assert (Gx : hm_get ident_key_eqb k a = Some x) by (apply hm_get_In; auto with equivb). rewrite Gx in *. destruct (hm_get ident_key_eqb k b) as [y|]; cbn in G; [|contradiction].
      destruct G as (E1 & E2 & _). unfold ms_equal_without_traits. rewrite E1, E2, ident_eqb_refl, sid_eqb_refl. cbn. apply IH. intros z Iz. apply I. right. exact Iz. }
    apply X, incl_refl.
  Qed.
  Lemma reorder_equal_without_traits s t : body_ok (ts_body s) -> reorder_shape s t -> equal_without_traits s t = Ok true.
  Proof.
    intros O (E & _ & B). unfold equal_without_traits. rewrite E, sid_eqb_refl.
    destruct B as [? ? (E1 & E2 & _)|? ? (E1 & E2 & _)|? ? ? ? (E1 & E2 & _) (E3 & E4 & _)|? ? RM|? ? RM|? ? RS|? ? RR|b];
      unfold ms_equal_without_traits; rewrite ?E1, ?E2, ?E3, ?E4, ?ident_eqb_refl, ?sid_eqb_refl; try reflexivity.
    - apply reorder_members_equal; [apply O|exact RM].
    - apply reorder_members_equal; [apply O|exact RM].
    - rewrite service_reorder_eqb; [reflexivity|apply O|exact RS].
    - rewrite resource_reorder_eqb; [reflexivity|apply O|exact RR].
    - pose proof (equal_without_traits_refl (Shape (ts_id t) [] b) O) as Q. unfold equal_without_traits in Q. cbn [ts_id ts_body] in Q.
      rewrite sid_eqb_refl in Q. exact Q.
  Qed.
  Definition mergeable (s t : shape) : Prop :=
    ts_id s = ts_id t /\ reorder_traits (ts_traits s) (ts_traits t) /\ equal_without_traits s t = Ok true.
  Lemma add_shape_order m s t : model_ok m -> stable_model m -> In (ts_id s, s) (m_shapes m) -> mergeable s t -> add_shape m t = (m, Ok tt).
  Proof.
    intros W [_ S] I RO. assert (E := model_entries_ok m W). destruct W as ((K1 & K2 & K3) & Ws & _).
    rewrite Forall_forall in Ws, S. destruct E as [_ E]. rewrite Forall_forall in E. destruct (E _ I) as (_ & Wsh & R). cbn in R.
    assert (G : model_shape m (ts_id s) = Some s) by (apply model_shape_In; auto).
    destruct RO as (Ei & RT & Q0). rewrite Ei in G.
    assert (A : append_traits (ts_traits s) (ts_traits t) = (ts_traits s, Ok tt)) by (apply append_traits_order; [apply Wsh|apply (S _ I)|exact RT]).
    assert (B : merged_body (ts_body s) (ts_body t) = ts_body s) by (clear - Q0; unfold equal_without_traits in Q0; destruct (sid_eqb _ _); [|discriminate]; destruct (ts_body s), (ts_body t); try discriminate; reflexivity).
    destruct (add_shape m t) as [m' r] eqn:AS. pose proof (add_shape_cases m t) as C. rewrite AS in C. cbn in C.
    destruct C as [M U|W' F'|e W' F' N1 N2 Q|e W' F' N1 N2 Q|e ts r W' F' C A']; try congruence.
    - rewrite <- Ei in M. destruct R as [R|R]; [congruence|]. exfalso. apply U. clear - Q0 R. unfold equal_without_traits in Q0. rewrite R in Q0. destruct (sid_eqb _ _); [|discriminate]. destruct (ts_body t); try discriminate; reflexivity.
    - assert (e = s) by congruence. subst e. rewrite A in A'. injection A' as <- <-. rewrite B, shape_eta.
      f_equal. unfold update_shape. rewrite hm_update_same by assumption. destruct m; reflexivity.
  Qed.
  Lemma merge_mergeable m m' : model_ok m -> stable_model m ->
    m_version m = m_version m' -> reordered reorder_value (m_metadata m) (m_metadata m') -> reordered mergeable (m_shapes m) (m_shapes m') ->
    merge m m' = (m, Ok tt).
  Proof.
    intros W S V RM RS. unfold merge. rewrite <- V. destruct (m_version m); cbn.
    assert (A : merge_metadata m (m_metadata m') = (m, Ok tt)).
    { destruct W as ((_ & _ & K3) & _ & Wv), S as [S _]. rewrite Forall_forall in Wv, S. destruct RM as (l & P & F).
      assert (I : incl l (m_metadata m)) by (intros x Ix; eapply Permutation_in; [apply Permutation_sym, P|exact Ix]). clear P RS V.
      induction F as [|[k v] [k' w] l r [Ek Rv] F IH]; cbn; [reflexivity|]. cbn [fst snd] in Ek, Rv. subst k'.
      assert (Iv : In (k, v) (m_metadata m)) by (apply I; left; reflexivity).
      assert (G : metadata_value m k = Some v) by (apply hm_get_In; auto with equivb).
      assert (AM : exists r, add_metadata m k w = (m, Ok r)).
      { unfold add_metadata. rewrite G. destruct (S _ Iv) as [Sv Sa]. cbn in Sv, Sa.
        assert (Wk := Wv _ Iv). cbn in Wk. assert (Eq : value_eqb v w = true) by (apply reorder_value_eqb; [exact Wk|apply same_value_nan_free; assumption|exact Rv]).
        destruct v as [a| | | | |]; try (destruct w; rewrite Eq; eauto; fail).
        rewrite (Sa _ eq_refl) in *. inversion Rv as [? r0 F0| |]; subst; [inversion F0; subst|]; cbn [app];
          rewrite (hm_insert_same str_eqb) by exact G; destruct m; eexists; reflexivity. }
      destruct AM as [r0 ->]. apply IH. intros x Hx. apply I. right; assumption. }
    rewrite A. destruct RS as (l & P & F).
    assert (I : incl l (m_shapes m)) by (intros x Ix; eapply Permutation_in; [apply Permutation_sym, P|exact Ix]). clear P A RM V.
    induction F as [|[k s] [k' t] l r [Ek Rs] F IH]; cbn; [reflexivity|]. cbn [fst snd] in Ek, Rs. subst k'.
    assert (Is : In (k, s) (m_shapes m)) by (apply I; left; reflexivity).
    assert (k = ts_id s) by (apply W in Is; tauto). subst k. rewrite (add_shape_order m s t W S Is Rs).
    apply IH. intros x Hx. apply I. right; assumption.
  Qed.
  Lemma merge_order m m' : model_ok m -> stable_model m -> reorder_model m m' -> merge m m' = (m, Ok tt).
  Proof.
    intros W S (V & RM & l & P & F). apply merge_mergeable; auto. exists l. split; [exact P|].
    assert (I : incl l (m_shapes m)) by (intros x Ix; eapply Permutation_in; [apply Permutation_sym, P|exact Ix]). clear P.
    destruct W as (_ & Ws & _). rewrite Forall_forall in Ws.
    induction F as [|x y l r [Ek Rs] F IH]; constructor.
    - split; [exact Ek|]. split; [apply Rs|]. split; [apply Rs|]. apply reorder_equal_without_traits; [apply (Ws x), I; left; reflexivity|exact Rs].
    - apply IH. intros z Iz. apply I. right. exact Iz.
  Qed.

  (** ** Reordering keeps well-formedness *)
  Lemma reordered_forall' {K V} (R : V -> V -> Prop) (P Q : K * V -> Prop) a b :
    (forall k x y, R x y -> P (k, x) -> Q (k, y)) -> reordered R a b -> Forall P a -> Forall Q b.
  Proof.
    intros T (l & Pm & F) A. assert (A' : Forall P l) by (rewrite Forall_forall in A |- *; intros x I; apply A; eapply Permutation_in; [apply Permutation_sym, Pm|exact I]).
    clear Pm A. induction F as [|[k x] [k' y] l b [E Rxy] F IH]; constructor; inversion A' as [|? ? A1 A2]; subst; cbn [fst snd] in *; subst; eauto.
  Qed.
  Lemma reorder_value_ok v : forall w, value_ok v -> reorder_value v w -> value_ok w.
  Proof.
    induction v as [l IH|l IH|n|x|s|] using value_ind'; intros w O R; inversion R as [? r F|? l' r P F|]; subst; try assumption;
      inversion O as [? Fo|? D Fo| | | |]; subst.
    - constructor. clear O R. revert Fo. induction F as [|x y l r Rxy F IHF]; intros Fo; constructor; inversion IH; inversion Fo; subst; eauto.
    - constructor; [exact (reordered_distinct str_eqb str_eqb_equiv reorder_value _ _ D (ex_intro _ l' (conj P F)))|].
      apply (Permutation_Forall P) in IH. apply (Permutation_Forall P) in Fo. clear - IH Fo F. revert IH Fo.
      induction F as [|[k x] [k' y] l r [E Rxy] F IHF]; intros IH Fo; constructor; inversion IH; inversion Fo; subst; cbn in *; eauto.
  Qed.
  Lemma reorder_traits_ok a b : traits_ok a -> reorder_traits a b -> traits_ok b.
  Proof.
    intros [D F] R. split; [exact (reordered_distinct sid_key_eqb sid_key_equiv _ _ _ D R)|].
    revert F. apply (reordered_forall' reorder_trait_value); [|exact R]. intros k [x|] [y|] Rxy; cbn in *; try contradiction; [|auto]. intros [M O]. split; [exact M|].
    eapply reorder_value_ok; eassumption.
  Qed.
  Lemma reorder_body_ok a b : body_ok a -> reorder_body a b -> body_ok b.
  Proof.
    intros O R. destruct R as [| | |? ? R|? ? R|? ? (_ & _ & _ & P)|? ? (P & _)|]; try exact O; cbn in *.
    - exact (reordered_distinct ident_key_eqb ident_key_equiv _ _ _ O R).
    - exact (reordered_distinct ident_key_eqb ident_key_equiv _ _ _ O R).
    - eapply distinct_perm; [apply sid_key_equiv|exact P|exact O].
    - eapply distinct_perm; [apply ident_key_equiv|exact P|exact O].
  Qed.
  Lemma reorder_shape_ok a b : shape_ok a -> reorder_shape a b -> shape_ok b.
  Proof. intros [T B] (_ & RT & RB). split; [eapply reorder_traits_ok; eassumption|eapply reorder_body_ok; eassumption]. Qed.
  Lemma reorder_model_ok a b : model_ok a -> reorder_model a b -> model_ok b.
  Proof.
    intros ((K1 & K2 & K3) & S & M) (_ & RM & RS). split; [split; [|split]|split].
    - assert (F : Forall (fun e => fst e = ts_id (snd e) /\ (sid_member (fst e) <> None -> ts_body (snd e) = KUnresolved)) (m_shapes b)).
      { apply (reordered_forall' reorder_shape (fun e => fst e = ts_id (snd e) /\ (sid_member (fst e) <> None -> ts_body (snd e) = KUnresolved)) _ _ _) with (2 := RS).
        - intros k x y (E & _ & B). cbn. rewrite E. intros [E1 E2]. split; [exact E1|]. intros N. specialize (E2 N). rewrite E2 in B. inversion B; reflexivity.
        - apply Forall_forall. intros [k x] I. cbn. exact (K1 k x I). }
      rewrite Forall_forall in F. intros k s I. exact (F _ I).
    - exact (reordered_distinct sid_key_eqb sid_key_equiv _ _ _ K2 RS).
    - exact (reordered_distinct str_eqb str_eqb_equiv _ _ _ K3 RM).
    - revert S. apply (reordered_forall' reorder_shape); [|exact RS]. cbn. intros k x y R O. eapply reorder_shape_ok; eassumption.
    - revert M. apply (reordered_forall' reorder_value); [|exact RM]. cbn. intros k x y R O. eapply reorder_value_ok; eassumption.
  Qed.
End WithHasher.
