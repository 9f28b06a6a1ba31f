(** A model and the same model with its maps reordered are [==] (unless a NaN is inside). *)
From Verif.Model Require Import SemModel.
From Verif.Spec Require Import ModelSpec ReorderSpec.
From Verif.Proofs Require Import BaseFacts IdentityFacts HashMapFacts ValueFacts ShapeFacts.

Lemma perm_forall2 {A B} (R : A -> B -> Prop) a a' b :
  Permutation a a' -> Forall2 R a b -> exists b', Permutation b b' /\ Forall2 R a' b'.
Proof.
  intros P. revert b. induction P as [|x l l' P IH|x y l|l1 l2 l3 P1 IH1 P2 IH2]; intros b F.
  - inversion F; subst. exists []. auto.
  - inversion F as [|? y ? b0 Rxy F0]; subst. destruct (IH _ F0) as (b' & Pb & Fb). exists (y :: b'). split; [constructor|constructor]; assumption.
  - inversion F as [|? u ? b0 R1 F0]; subst. inversion F0 as [|? v ? b1 R2 F1]; subst. exists (v :: u :: b1).
    split; [apply perm_swap|]. constructor; [assumption|constructor; assumption].
  - destruct (IH1 _ F) as (b1 & Pb1 & F1). destruct (IH2 _ F1) as (b2 & Pb2 & F2). exists b2. split; [etransitivity; eassumption|assumption].
Qed.
Lemma forall2_in_l {A B} (R : A -> B -> Prop) a b x : Forall2 R a b -> In x a -> exists y, In y b /\ R x y.
Proof. induction 1 as [|u v a b Ruv F IH]; intros []; [subst; exists v; split; [left; reflexivity|assumption]|]. destruct IH as (y & I & Ry); [assumption|]. exists y. split; [right|]; assumption. Qed.
Lemma forall2_in_r {A B} (R : A -> B -> Prop) a b y : Forall2 R a b -> In y b -> exists x, In x a /\ R x y.
Proof. induction 1 as [|u v a b Ruv F IH]; intros []; [subst; exists u; split; [left; reflexivity|assumption]|]. destruct IH as (x & I & Ry); [assumption|]. exists x. split; [right|]; assumption. Qed.
Lemma forall2_length {A B} (R : A -> B -> Prop) a b : Forall2 R a b -> length a = length b.
Proof. induction 1; cbn; congruence. Qed.

Lemma Forall2_impl {A B} (R R' : A -> B -> Prop) a b : (forall x y, R x y -> R' x y) -> Forall2 R a b -> Forall2 R' a b.
Proof. intros X F. induction F; constructor; auto. Qed.
Lemma distinct_keys {K V W} (keq : K -> K -> bool) (a : list (K * V)) : forall (b : list (K * W)),
  Forall2 (fun x y => fst x = fst y) a b -> distinct keq a -> distinct keq b.
Proof.
  induction a as [|[k v] a IH]; intros b F D; inversion F as [|? [k' w] ? b0 E F0]; subst; cbn in *; [exact I|]. subst k'.
  destruct D as [D1 D2]. split; [|apply IH; assumption]. intros k' w' I. destruct (forall2_in_r _ _ _ _ F0 I) as ([k1 v1] & I1 & E1). cbn in E1. subst k1. eauto.
Qed.
Lemma reordered_distinct {K V} (keq : K -> K -> bool) (EQ : equivb keq) (R : V -> V -> Prop) a b :
  distinct keq a -> reordered R a b -> distinct keq b.
Proof.
  intros D (a' & P & F). apply (distinct_perm keq EQ _ _ P) in D. eapply distinct_keys; [|exact D].
  eapply Forall2_impl; [|exact F]. intros x y [E _]. exact E.
Qed.
Lemma reordered_get {K V} (keq : K -> K -> bool) (EQ : equivb keq) (R : V -> V -> Prop) a b k :
  distinct keq a -> reordered R a b -> opt_rel R (hm_get keq k a) (hm_get keq k b).
Proof.
  intros D (a' & P & F). rewrite (hm_get_perm keq EQ _ _ k P D). clear D P. induction F as [|[k1 x] [k2 y] a' b [E Rxy] F IH]; cbn; [exact I|].
  cbn in E, Rxy. subst k2. destruct (keq k1 k); [exact Rxy|exact IH].
Qed.
Lemma hm_eqb_reordered {K V} (keq : K -> K -> bool) (EQ : equivb keq) (R : V -> V -> Prop) (e : V -> V -> bool) a b :
  distinct keq a -> reordered R a b -> (forall k x y, In (k, x) a -> R x y -> e x y = true) -> hm_eqb keq e a b = true.
Proof.
  intros D RO He. assert (Db := reordered_distinct keq EQ R a b D RO). unfold hm_eqb. apply andb_true_iff. split.
  - apply Nat.eqb_eq. destruct RO as (a' & P & F). rewrite (Permutation_length P). apply (forall2_length _ _ _ F).
  - apply forallb_forall. intros [k x] I. cbn [fst snd]. destruct RO as (a' & P & F).
    assert (I' := Permutation_in _ P I). destruct (forall2_in_l _ _ _ _ F I') as ([k' y] & Ib & E & Rxy). cbn in E, Rxy. subst k'.
    rewrite (hm_get_In keq EQ b k y Db Ib). eapply He; eassumption.
Qed.

Lemma value_eqb_object l r : value_eqb (VObject l) (VObject r) = hm_eqb str_eqb value_eqb l r.
Proof. reflexivity. Qed.
Lemma value_eqb_refl v : value_ok v -> nan_free v -> value_eqb v v = true.
Proof. intros O N. apply value_eqb_spec; [assumption|assumption|apply same_value_refl, N]. Qed.
Lemma reorder_value_eqb v : forall w, value_ok v -> nan_free v -> reorder_value v w -> value_eqb v w = true.
Proof.
  induction v as [l IH|l IH| | | |] using value_ind'; intros w O N R; inversion R as [? r F E1 E2|? l' r P F E1 E2|? E1 E2]; subst;
    try (apply value_eqb_refl; assumption).
  - inversion O as [? Fo| | | | |]; subst. inversion N as [? Fn| | | | | |]; subst. clear O N R.
    induction F as [|x y l r Rxy F IHF]; [reflexivity|]. inversion IH; inversion Fo; inversion Fn; subst.
    rewrite value_eqb_array. apply andb_true_iff. split; auto.
  - inversion O as [|? D Fo| | | |]; subst. inversion N as [|? Fn| | | | |]; subst. rewrite value_eqb_object.
    apply (hm_eqb_reordered str_eqb str_eqb_equiv reorder_value); [assumption|exists l'; split; assumption|].
    intros k x y I Rxy. rewrite Forall_forall in IH, Fo, Fn. apply (IH _ I); [exact (Fo _ I)|exact (Fn _ I)|exact Rxy].
Qed.

Definition tv_nan_free (v : option value) : Prop := match v with Some v => nan_free v | None => True end.
Definition traits_nan_free (ts : traits) : Prop := Forall (fun t => tv_nan_free (snd t)) ts.
Definition body_members (b : shape_kind) : list member_shape :=
  match b with
  | KList m | KSet m => [m]
  | KMap k v => [k; v]
  | KStructure ms | KUnion ms => map snd ms
  | _ => []
  end.

Section WithHasher.
  Context `{Hasher}.
  Lemma reorder_traits_eqb a b : traits_ok a -> traits_nan_free a -> reorder_traits a b -> traits_eqb a b = true.
  Proof.
    intros [D O] N R. apply (hm_eqb_reordered sid_key_eqb sid_key_equiv _ _ _ _ D R). intros k x y I Rxy.
    unfold traits_nan_free in N. rewrite Forall_forall in O, N. destruct (O _ I) as [_ Ov]. specialize (N _ I). cbn in Ov, N.
    destruct x, y; cbn in *; try contradiction; [apply reorder_value_eqb; assumption|reflexivity].
  Qed.
  Definition member_ok (m : member_shape) : Prop := traits_ok (ms_traits m) /\ traits_nan_free (ms_traits m).
  Lemma reorder_member_eqb a b : member_ok a -> reorder_member a b -> ms_eqb a b = true.
  Proof.
    intros [O N] (E1 & E2 & T). unfold ms_eqb. rewrite E1, E2, ident_eqb_refl, sid_eqb_refl, andb_true_r. cbn. apply reorder_traits_eqb; assumption.
  Qed.
  Lemma list_eqb_refl {A} (e : A -> A -> bool) l : (forall x, e x x = true) -> list_eqb e l l = true.
  Proof. intros R. induction l as [|x l IH]; cbn; [reflexivity|]. rewrite R. exact IH. Qed.
  Lemma perm_reordered {K V} (a b : list (K * V)) : Permutation a b -> reordered eq a b.
  Proof. intros P. exists b. split; [exact P|]. clear. induction b; constructor; auto. Qed.
  Lemma reordered_refl {K V} (R : V -> V -> Prop) (a : list (K * V)) : (forall x, R x x) -> reordered R a a.
  Proof. intros X. exists a. split; [reflexivity|]. induction a; constructor; auto. Qed.
  Lemma reorder_traits_refl ts : reorder_traits ts ts.
  Proof. apply reordered_refl. intros [v|]; cbn; [apply rv_same|exact I]. Qed.
  Lemma reorder_member_refl m : reorder_member m m.
  Proof. repeat split. apply reorder_traits_refl. Qed.
  Lemma service_reorder_eqb a b : distinct sid_key_eqb (sv_renames a) -> reorder_service a b -> service_eqb a b = true.
  Proof.
    intros D (E1 & E2 & E3 & P). unfold service_eqb. rewrite E1, E2, E3, str_eqb_refl, !list_eqb_refl by apply sid_eqb_refl. cbn.
    apply (hm_eqb_reordered sid_key_eqb sid_key_equiv eq _ _ _ D (perm_reordered _ _ P)). intros k x y _ ->. apply ident_eqb_refl.
  Qed.
  Lemma resource_reorder_eqb a b : distinct ident_key_eqb (rs_identifiers a) -> reorder_resource a b -> resource_eqb a b = true.
  Proof.
    intros D (P & E1 & E2 & E3 & E4 & E5 & E6 & E7 & E8 & E9). unfold resource_eqb. rewrite E1, E2, E3, E4, E5, E6, E7, E8, E9.
    rewrite !(option_eqb_refl sid_eqb) by apply sid_eqb_refl. rewrite !list_eqb_refl by apply sid_eqb_refl. rewrite !andb_true_r.
    apply (hm_eqb_reordered ident_key_eqb ident_key_equiv eq _ _ _ D (perm_reordered _ _ P)). intros k x y _ ->. apply sid_eqb_refl.
  Qed.
  Lemma reorder_body_eqb a b : body_ok a -> Forall member_ok (body_members a) -> reorder_body a b -> kind_eqb a b = true.
  Proof.
    intros O M R.
    assert (SU : forall x y, distinct ident_key_eqb x -> Forall member_ok (map snd x) -> reordered reorder_member x y -> hm_eqb ident_key_eqb ms_eqb x y = true).
    { intros x y D F RO. apply (hm_eqb_reordered ident_key_eqb ident_key_equiv _ _ _ _ D RO). intros k u v I. apply reorder_member_eqb.
      rewrite Forall_forall in F. apply F. apply in_map_iff. exists (k, u). auto. }
    destruct R as [a b R|a b R|k v k' v' Rk Rv|a b R|a b R|a b R|a b R|b]; cbn [kind_eqb body_ok body_members] in *.
    - inversion M; subst. apply reorder_member_eqb; assumption.
    - inversion M; subst. apply reorder_member_eqb; assumption.
    - inversion M as [|? ? Hk M']; subst. inversion M' as [|? ? Hv _]; subst. apply andb_true_iff; split; apply reorder_member_eqb; assumption.
    - apply SU; assumption.
    - apply SU; assumption.
    - apply service_reorder_eqb; assumption.
    - apply resource_reorder_eqb; assumption.
    - destruct b as [s|m|m|k v|ms|ms|s|o|r|]; cbn [kind_eqb body_ok body_members] in *.
      + apply simple_eqb_spec. reflexivity.
      + inversion M; subst. apply reorder_member_eqb; [assumption|apply reorder_member_refl].
      + inversion M; subst. apply reorder_member_eqb; [assumption|apply reorder_member_refl].
      + inversion M as [|? ? Hk M']; subst. inversion M' as [|? ? Hv _]; subst. apply andb_true_iff; split; apply reorder_member_eqb; try assumption; apply reorder_member_refl.
      + apply SU; [assumption|assumption|apply reordered_refl, reorder_member_refl].
      + apply SU; [assumption|assumption|apply reordered_refl, reorder_member_refl].
      + apply service_reorder_eqb; [assumption|]. repeat split; reflexivity.
      + unfold operation_eqb. rewrite !(option_eqb_refl sid_eqb) by apply sid_eqb_refl. apply list_eqb_refl, sid_eqb_refl.
      + apply resource_reorder_eqb; [assumption|]. repeat split; reflexivity.
      + reflexivity.
  Qed.
  Definition shape_clean (s : shape) : Prop :=
    shape_ok s /\ traits_nan_free (ts_traits s) /\ Forall member_ok (body_members (ts_body s)).
  Lemma reorder_shape_eqb a b : shape_clean a -> reorder_shape a b -> shape_eqb a b = true.
  Proof.
    intros ((T & B) & N & M) (E & RT & RB). unfold shape_eqb. rewrite E, sid_eqb_refl.
    rewrite (reorder_traits_eqb _ _ T N RT). cbn. apply reorder_body_eqb; assumption.
  Qed.
  Definition model_clean (m : model) : Prop :=
    keys_ok m /\ Forall (fun e => shape_clean (snd e)) (m_shapes m) /\ Forall (fun e => value_ok (snd e) /\ nan_free (snd e)) (m_metadata m).
  Lemma reorder_model_eqb a b : model_clean a -> reorder_model a b -> model_eqb a b = true.
  Proof.
    intros (K & S & M) (E & RM & RS). unfold model_eqb. rewrite E. apply andb_true_iff. split; [apply andb_true_iff; split|].
    - destruct (m_version b). reflexivity.
    - apply (hm_eqb_reordered str_eqb str_eqb_equiv _ _ _ _ (proj2 (proj2 K)) RM). intros k x y I R. rewrite Forall_forall in M.
      destruct (M _ I) as [O N]. apply reorder_value_eqb; assumption.
    - apply (hm_eqb_reordered sid_key_eqb sid_key_equiv _ _ _ _ (proj1 (proj2 K)) RS). intros k x y I R. rewrite Forall_forall in S.
      apply reorder_shape_eqb; [exact (S _ I)|exact R].
  Qed.
End WithHasher.
