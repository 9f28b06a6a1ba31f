(** Structural equality of shapes and trait application. *)
From Verif.Model Require Import SemModel.
From Verif.Spec Require Import ModelSpec.
From Verif.Proofs Require Import HashMapFacts ValueFacts.

Lemma opt_name_rel x y : option_map lower x = option_map lower y <-> opt_rel same_name x y.
Proof. unfold same_name. destruct x, y; cbn; split; congruence || tauto. Qed.
Lemma sid_eqb_same a b : sid_eqb a b = true <-> same_id a b.
Proof. rewrite sid_eqb_spec. unfold same_id. rewrite opt_name_rel. reflexivity. Qed.
Lemma ident_eqb_same a b : ident_eqb a b = true <-> same_name a b.
Proof. apply ident_eqb_spec. Qed.
Lemma same_name_refl a : same_name a a. Proof. reflexivity. Qed.
Lemma same_id_refl a : same_id a a. Proof. apply sid_eqb_same, sid_eqb_refl. Qed.
Lemma same_id_sym a b : same_id a b -> same_id b a.
Proof. rewrite <- !sid_eqb_same. rewrite sid_eqb_sym. auto. Qed.
Lemma same_id_trans a b c : same_id a b -> same_id b c -> same_id a c.
Proof. rewrite <- !sid_eqb_same. apply sid_eqb_trans. Qed.
Lemma same_id_is_member a b : same_id a b -> sid_is_member a = sid_is_member b.
Proof. intros (_ & _ & E). unfold sid_is_member. destruct (sid_member a), (sid_member b); cbn in E; tauto. Qed.
Lemma sid_is_member_spec i : sid_is_member i = true <-> sid_member i <> None.
Proof. unfold sid_is_member. destruct (sid_member i); split; congruence. Qed.
Lemma sid_is_member_false i : sid_is_member i = false <-> sid_member i = None.
Proof. unfold sid_is_member. destruct (sid_member i); split; congruence. Qed.

Lemma option_eqb_spec {A} (e : A -> A -> bool) (R : A -> A -> Prop) x y :
  (forall a b, x = Some a -> y = Some b -> (e a b = true <-> R a b)) -> (option_eqb e x y = true <-> opt_rel R x y).
Proof. intros G. destruct x, y; cbn; try (split; congruence || tauto). apply G; reflexivity. Qed.
Lemma list_eqb_spec {A} (e : A -> A -> bool) (R : A -> A -> Prop) :
  (forall a b, e a b = true <-> R a b) -> forall x y, list_eqb e x y = true <-> Forall2 R x y.
Proof.
  intros G. induction x as [|a x IH]; intros [|b y]; cbn.
  - split; constructor.
  - split; [discriminate|inversion 1].
  - split; [discriminate|inversion 1].
  - rewrite andb_true_iff, IH, G. split; [intros []; constructor; auto|inversion 1; auto].
Qed.
Lemma opt_rel_sym {A} (R : A -> A -> Prop) x y : (forall a b, R a b -> R b a) -> opt_rel R x y -> opt_rel R y x.
Proof. intros G. destruct x, y; cbn; auto. Qed.
Lemma opt_rel_refl {A} (R : A -> A -> Prop) x : (forall a, R a a) -> opt_rel R x x.
Proof. intros G. destruct x; cbn; auto. Qed.
Lemma opt_rel_impl {A B} (R R' : A -> B -> Prop) x y : (forall a b, R a b -> R' a b) -> opt_rel R x y -> opt_rel R' x y.
Proof. intros G. destruct x, y; cbn; auto. Qed.
Lemma Forall2_sym {A} (R : A -> A -> Prop) x y : (forall a b, R a b -> R b a) -> Forall2 R x y -> Forall2 R y x.
Proof. intros G. induction 1; constructor; auto. Qed.
Lemma Forall2_refl {A} (R : A -> A -> Prop) x : (forall a, R a a) -> Forall2 R x x.
Proof. intros G. induction x; constructor; auto. Qed.

Lemma simple_eqb_spec a b : simple_eqb a b = true <-> a = b.
Proof. split; [destruct a, b; cbn; congruence|intros ->; destruct b; reflexivity]. Qed.

Lemma ms_equal_spec a b : ms_equal_without_traits a b = true <-> same_member a b.
Proof. unfold ms_equal_without_traits, same_member. rewrite andb_true_iff, ident_eqb_same, sid_eqb_same. reflexivity. Qed.
Lemma same_member_refl a : same_member a a.
Proof. split; [reflexivity|apply same_id_refl]. Qed.
Lemma same_member_sym a b : same_member a b -> same_member b a.
Proof. unfold same_member, same_name. intros [-> H]. split; [reflexivity|apply same_id_sym; assumption]. Qed.

Section WithHasher.
  Context `{Hasher}.

  Lemma operation_eqb_spec a b : operation_eqb a b = true <-> same_operation a b.
  Proof.
    unfold operation_eqb, same_operation. rewrite !andb_true_iff.
    rewrite !(option_eqb_spec sid_eqb same_id) by (intros; apply sid_eqb_same).
    rewrite (list_eqb_spec sid_eqb same_id) by apply sid_eqb_same. tauto.
  Qed.
  Lemma service_eqb_spec a b :
    distinct sid_key_eqb (sv_renames a) -> distinct sid_key_eqb (sv_renames b) ->
    (service_eqb a b = true <-> same_service a b).
  Proof.
    intros Da Db. unfold service_eqb, same_service. rewrite !andb_true_iff, str_eqb_eq.
    rewrite !(list_eqb_spec sid_eqb same_id) by apply sid_eqb_same.
    rewrite (hm_eqb_spec sid_key_eqb sid_key_equiv ident_eqb same_name) by (auto; intros; apply ident_eqb_same).
    tauto.
  Qed.
  Lemma resource_eqb_spec a b :
    distinct ident_key_eqb (rs_identifiers a) -> distinct ident_key_eqb (rs_identifiers b) ->
    (resource_eqb a b = true <-> same_resource a b).
  Proof.
    intros Da Db. unfold resource_eqb, same_resource. rewrite !andb_true_iff.
    rewrite !(list_eqb_spec sid_eqb same_id) by apply sid_eqb_same.
    rewrite !(option_eqb_spec sid_eqb same_id) by (intros; apply sid_eqb_same).
    rewrite (hm_eqb_spec ident_key_eqb ident_key_equiv sid_eqb same_id) by (auto; intros; apply sid_eqb_same).
    unfold rs_identifier. tauto.
  Qed.

  Lemma all_members_equal_true l r ks :
    all_members_equal l r ks = Ok true <->
    Forall (fun k => exists a b, su_member l k = Some a /\ su_member r k = Some b /\ same_member a b) ks.
  Proof.
    induction ks as [|k ks IH]; cbn; [split; constructor|].
    destruct (su_member l k) as [a|] eqn:Ea.
    2:{ split; [discriminate|inversion 1 as [|? ? (a & b & E & _)]; congruence]. }
    destruct (su_member r k) as [b|] eqn:Eb.
    2:{ split; [discriminate|inversion 1 as [|? ? (a' & b & _ & E & _)]; congruence]. }
    destruct (ms_equal_without_traits a b) eqn:E.
    - rewrite IH. apply ms_equal_spec in E. split; [intros F; constructor; eauto 6|inversion 1; auto].
    - split; [discriminate|]. inversion 1 as [|? ? (a' & b' & Ea' & Eb' & S)]; subst.
      assert (a = a') by congruence. assert (b = b') by congruence. subst. apply ms_equal_spec in S. congruence.
  Qed.
  Lemma all_members_equal_panic l r ks :
    all_members_equal l r ks = Panic -> exists k, In k ks /\ (su_member l k = None \/ su_member r k = None).
  Proof.
    induction ks as [|k ks IH]; cbn; [discriminate|].
    destruct (su_member l k) eqn:Ea; [|eauto 6]. destruct (su_member r k) eqn:Eb; [|eauto 6].
    destruct (ms_equal_without_traits _ _); [|discriminate]. intros P. destruct (IH P) as (k' & I & C). eauto.
  Qed.
  Lemma all_members_equal_no_err l r ks e : all_members_equal l r ks <> Err e.
  Proof.
    induction ks as [|k ks IH]; cbn; [discriminate|].
    destruct (su_member l k); [|discriminate]. destruct (su_member r k); [|discriminate].
    destruct (ms_equal_without_traits _ _); [assumption|discriminate].
  Qed.

  Lemma su_member_key (l : members) k : In k (hm_keys l) -> su_member l k <> None.
  Proof.
    unfold hm_keys, su_member. rewrite in_map_iff. intros ([k' v] & <- & I). eapply hm_get_key; eauto with equivb.
  Qed.
  Lemma members_equal_true l r :
    distinct ident_key_eqb l -> distinct ident_key_eqb r -> (members_equal l r = Ok true <-> same_members l r).
  Proof.
    intros Dl Dr. unfold members_equal. split.
    - destruct (Nat.eqb (length l) (length r)) eqn:L; [|discriminate]. apply Nat.eqb_eq in L.
      rewrite all_members_equal_true, Forall_forall. intros F n.
      destruct (su_member l n) as [a|] eqn:Ea.
      + unfold su_member in Ea. assert (Ea' := Ea). apply hm_get_Some_In in Ea' as (k & I & E).
        destruct (F k) as (a' & b & Ga & Gb & S); [unfold hm_keys; apply in_map_iff; exists (k, a); auto|].
        unfold su_member in *. rewrite (hm_get_cong _ ident_key_equiv _ _ _ E) in Ga. rewrite (hm_get_cong _ ident_key_equiv _ _ _ E) in Gb. rewrite Gb. cbn. congruence.
      + destruct (su_member r n) as [b|] eqn:Eb; cbn; [|exact I].
        unfold su_member in *. apply hm_get_Some_In in Eb as (k & I & E).
        rewrite <- (hm_get_cong _ ident_key_equiv _ _ _ E) in Ea.
        eapply (keys_subset_eq ident_key_eqb ident_key_equiv l r) in Ea; eauto.
        intros k0 v0 I0 C. destruct (F k0) as (a' & b' & _ & Gb & _); [unfold hm_keys; apply in_map_iff; exists (k0, v0); auto|].
        unfold su_member in Gb. congruence.
    - intros S. assert (L : length l = length r).
      { apply Nat.le_antisymm; eapply (keys_subset_length ident_key_eqb ident_key_equiv); eauto;
          intros k v I C; specialize (S k); unfold su_member in S; rewrite C in S;
          apply (hm_get_In _ ident_key_equiv) in I; auto; rewrite I in S; exact S. }
      apply Nat.eqb_eq in L. rewrite L. apply all_members_equal_true, Forall_forall. intros k I.
      apply su_member_key in I. specialize (S k). destruct (su_member l k); [|congruence].
      destruct (su_member r k); [|destruct S]. eauto.
  Qed.
  Lemma members_equal_panic l r :
    members_equal l r = Panic -> length l = length r /\ exists k, In k (hm_keys l) /\ su_member r k = None.
  Proof.
    unfold members_equal. destruct (Nat.eqb (length l) (length r)) eqn:L; [|discriminate]. apply Nat.eqb_eq in L.
    intros P. split; [assumption|]. apply all_members_equal_panic in P as (k & I & [C|C]); [|eauto].
    apply su_member_key in I. congruence.
  Qed.

  Lemma same_members_refl l : same_members l l.
  Proof. intros n. apply opt_rel_refl. apply same_member_refl. Qed.
  Lemma same_structure_refl b : same_structure b b.
  Proof.
    destruct b; constructor; auto using same_member_refl, same_members_refl;
      unfold same_service, same_operation, same_resource; repeat split;
      try (intros; apply opt_rel_refl; intros; try apply same_id_refl; reflexivity);
      apply Forall2_refl, same_id_refl.
  Qed.
  Lemma same_structure_sym a b : same_structure a b -> same_structure b a.
  Proof.
    pose proof same_id_sym as SI.
    assert (SN : forall x y, same_name x y -> same_name y x) by (unfold same_name; congruence).
    destruct 1; constructor; auto using same_member_sym.
    - intros n. apply opt_rel_sym; [apply same_member_sym|auto].
    - intros n. apply opt_rel_sym; [apply same_member_sym|auto].
    - destruct H0 as (? & ? & ? & ?). repeat split; auto using Forall2_sym, opt_rel_sym.
    - destruct H0 as (? & ? & ?). repeat split; auto using Forall2_sym, opt_rel_sym.
    - destruct H0 as (? & ? & ? & ? & ? & ? & ? & ? & ? & ?). repeat split; auto using Forall2_sym, opt_rel_sym.
  Qed.

  Lemma equal_without_traits_true a b :
    body_ok (ts_body a) -> body_ok (ts_body b) -> same_id (ts_id a) (ts_id b) ->
    (equal_without_traits a b = Ok true <-> same_structure (ts_body a) (ts_body b)).
  Proof.
    intros Wa Wb S. unfold equal_without_traits. apply sid_eqb_same in S. rewrite S.
    destruct (ts_body a), (ts_body b); cbn in Wa, Wb; try (split; [discriminate|inversion 1; fail]).
    - split; [injection 1 as E; apply simple_eqb_spec in E; subst; constructor
             |inversion 1; subst; f_equal; apply simple_eqb_spec; reflexivity].
    - 
      split; [injection 1 as E; constructor; apply ms_equal_spec; assumption
             |inversion 1; subst; f_equal; apply ms_equal_spec; assumption].
    - split; [injection 1 as E; constructor; apply ms_equal_spec; assumption
             |inversion 1; subst; f_equal; apply ms_equal_spec; assumption].
    - split.
      + injection 1 as E. apply andb_true_iff in E as []. constructor; apply ms_equal_spec; assumption.
      + inversion 1; subst. f_equal. apply andb_true_iff; split; apply ms_equal_spec; assumption.
    - rewrite members_equal_true by assumption. split; [constructor; auto|inversion 1; auto].
    - rewrite members_equal_true by assumption. split; [constructor; auto|inversion 1; auto].
    - split; [injection 1 as E; constructor; apply service_eqb_spec; assumption
             |inversion 1; subst; f_equal; apply service_eqb_spec; assumption].
    - split; [injection 1 as E; constructor; apply operation_eqb_spec; assumption
             |inversion 1; subst; f_equal; apply operation_eqb_spec; assumption].
    - split; [injection 1 as E; constructor; apply resource_eqb_spec; assumption
             |inversion 1; subst; f_equal; apply resource_eqb_spec; assumption].
    - split; [constructor|reflexivity].
  Qed.

  Lemma equal_without_traits_no_err a b e : equal_without_traits a b <> Err e.
  Proof.
    unfold equal_without_traits. destruct (sid_eqb _ _); [|discriminate].
    destruct (ts_body a), (ts_body b); try discriminate; unfold members_equal;
      destruct (Nat.eqb _ _); try discriminate; apply all_members_equal_no_err.
  Qed.
  (** A panic needs two structures (or two unions) with equally many members of which one name in
      the first is missing in the second. *)
  Definition member_mismatch (a b : shape_kind) : Prop :=
    match a, b with
    | KStructure l, KStructure r | KUnion l, KUnion r =>
        length l = length r /\ exists k, In k (hm_keys l) /\ su_member r k = None
    | _, _ => False
    end.
  Lemma equal_without_traits_panic a b :
    equal_without_traits a b = Panic -> member_mismatch (ts_body a) (ts_body b).
  Proof.
    unfold equal_without_traits, member_mismatch. destruct (sid_eqb _ _); [|discriminate].
    destruct (ts_body a), (ts_body b); try discriminate; apply members_equal_panic.
  Qed.

  (** ** Traits *)
  Definition tv_ok (v : option value) : Prop := match v with Some v => value_ok v | None => True end.

  Lemma merge_traits_spec id a b c :
    tv_ok a -> tv_ok b -> (merge_traits id a b = Ok c <-> combine_trait a b c).
  Proof.
    intros Wa Wb.
    assert (G : (~ exists x y, a = Some (VArray x) /\ b = Some (VArray y)) ->
                ((if option_eqb value_eqb a b then Ok a else Err (EMergeTraitConflict id)) = Ok c <-> combine_trait a b c)).
    { intros N. destruct a as [a|], b as [b|]; cbn in *.
      - destruct (value_eqb a b) eqn:E.
        + apply value_eqb_spec in E; auto. split.
          * injection 1 as <-. constructor. apply cv_equal; [|assumption]. intros [[x ->] [y ->]]. apply N. eauto.
          * inversion 1 as [|? ? ? CV]; subst. inversion CV; subst; [exfalso; apply N; eauto|reflexivity].
        + split; [discriminate|]. inversion 1 as [|? ? ? CV]; subst. inversion CV; subst; [exfalso; apply N; eauto|].
          apply value_eqb_spec in H2; auto. congruence.
      - split; [discriminate|inversion 1].
      - split; [discriminate|inversion 1].
      - split; [injection 1 as <-; constructor|inversion 1; reflexivity]. }
    assert (D : (exists x y, a = Some (VArray x) /\ b = Some (VArray y)) \/ ~ (exists x y, a = Some (VArray x) /\ b = Some (VArray y))).
    { destruct a as [[]|], b as [[]|]; try (right; intros (? & ? & ? & ?); congruence). left; eauto. }
    destruct D as [(x & y & -> & ->)|N].
    - assert (M : merge_traits id (Some (VArray x)) (Some (VArray y)) = Ok (Some (VArray (x ++ y)))).
      { cbn. destruct x; [reflexivity|]. destruct y; [rewrite app_nil_r; reflexivity|reflexivity]. }
      rewrite M. split; [injection 1 as <-; constructor; constructor|].
      inversion 1 as [|? ? ? CV]; subst. inversion CV; subst; [reflexivity|].
      exfalso. match goal with h : ~ _ |- _ => apply h end. unfold is_array_value. eauto.
    - rewrite <- (G N). clear G. unfold merge_traits.
      destruct a as [[]|], b as [[]|]; try reflexivity. exfalso; apply N; eauto.
  Qed.
  Lemma merge_traits_err id a b : (exists c, merge_traits id a b = Ok c) \/ merge_traits id a b = Err (EMergeTraitConflict id).
  Proof.
    unfold merge_traits. destruct a as [[l| | | | |]|], b as [[r| | | | |]|];
      try (match goal with |- context [if ?x then _ else _] => destruct x end; eauto; fail).
    destruct l; [eauto|]. destruct r; eauto.
  Qed.

  Lemma apply_distinct ts id v : distinct sid_key_eqb ts -> distinct sid_key_eqb (fst (apply_with_value ts id v)).
  Proof.
    intros D. unfold apply_with_value. destruct (sid_is_member id); [assumption|].
    destruct (trait_named id ts); [destruct (merge_traits _ _ _)|]; cbn; auto; apply distinct_insert; auto with equivb.
  Qed.
  (** Complete description of one application. *)
  Lemma apply_frame ts id v ts' r t :
    apply_with_value ts id v = (ts', r) -> sid_key_eqb id t = false -> trait_named t ts' = trait_named t ts.
  Proof.
    unfold apply_with_value, trait_named. intros E N.
    destruct (sid_is_member id); [injection E as <- <-; reflexivity|].
    destruct (hm_get _ id ts); [destruct (merge_traits _ _ _)|]; injection E as <- <-; try reflexivity;
      rewrite hm_get_insert by auto with equivb; rewrite N; reflexivity.
  Qed.
  Lemma apply_ok ts id v ts' u :
    apply_with_value ts id v = (ts', Ok u) -> sid_member id = None /\
    match trait_named id ts with
    | Some old => exists new, merge_traits id old v = Ok new /\ trait_named id ts' = Some new
    | None => trait_named id ts' = Some v
    end.
  Proof.
    unfold apply_with_value. destruct (sid_is_member id) eqn:M; [discriminate|]. apply sid_is_member_false in M.
    unfold trait_named. destruct (hm_get _ id ts) as [old|].
    - destruct (merge_traits id old v) as [new| |] eqn:E; try discriminate. injection 1 as <-. split; [assumption|].
      exists new. split; [reflexivity|]. rewrite hm_get_insert, (eqv_refl _ sid_key_equiv) by auto with equivb. reflexivity.
    - injection 1 as <-. split; [assumption|]. rewrite hm_get_insert, (eqv_refl _ sid_key_equiv) by auto with equivb. reflexivity.
  Qed.
  Lemma apply_not_panic ts id v : snd (apply_with_value ts id v) <> Panic.
  Proof.
    unfold apply_with_value. destruct (sid_is_member id); [discriminate|].
    destruct (trait_named id ts) as [o|]; [|discriminate].
    destruct (merge_traits_err id o v) as [[c ->]| ->]; discriminate.
  Qed.
  Lemma append_not_panic from : forall ts, snd (append_traits ts from) <> Panic.
  Proof.
    induction from as [|[t v] from IH]; intros ts; cbn; [discriminate|].
    pose proof (apply_not_panic ts t v) as N. destruct (apply_with_value ts t v) as [ts' [| |]]; cbn in *; auto; discriminate.
  Qed.
  Lemma append_distinct from : forall ts, distinct sid_key_eqb ts -> distinct sid_key_eqb (fst (append_traits ts from)).
  Proof.
    induction from as [|[t v] from IH]; intros ts D; cbn; [assumption|].
    pose proof (apply_distinct ts t v D) as D'. destruct (apply_with_value ts t v) as [ts' [| |]]; cbn in *; auto.
  Qed.

  Lemma append_ok_lookup from : forall ts ts' u,
    distinct sid_key_eqb from -> append_traits ts from = (ts', Ok u) ->
    forall t, match trait_named t ts, trait_named t from with
              | Some a, Some b => exists c i, trait_named t ts' = Some c /\ merge_traits i a b = Ok c
              | Some a, None => trait_named t ts' = Some a
              | None, x => trait_named t ts' = x
              end.
  Proof.
    induction from as [|[i v] from IH]; intros ts ts' u D E t.
    - cbn in *. injection E as <-. destruct (trait_named t ts); auto.
    - cbn [append_traits] in E. destruct D as [D1 D2].
      destruct (apply_with_value ts i v) as [ts1 [u1| |]] eqn:A; try discriminate.
      specialize (IH ts1 ts' u D2 E t). cbn [trait_named hm_get]. unfold trait_named in *. cbn [hm_get].
      destruct (sid_key_eqb i t) eqn:M.
      + assert (Ht : hm_get sid_key_eqb t from = None).
        { apply hm_get_None_In. intros k' v' I. rewrite <- (keq_cong _ sid_key_equiv _ _ k' M). eauto. }
        rewrite Ht in IH. apply apply_ok in A as [_ A]. unfold trait_named in A.
        rewrite !(hm_get_cong _ sid_key_equiv _ _ _ M) in A.
        destruct (hm_get sid_key_eqb t ts) as [old|].
        * destruct A as (new & Em & A). rewrite A in IH. eauto.
        * rewrite A in IH. assumption.
      + apply (apply_frame _ _ _ _ _ t) in A; [|assumption]. unfold trait_named in A. rewrite A in IH. exact IH.
  Qed.

  Lemma append_ok_iff from : forall ts,
    traits_ok from -> (forall i v, In (i, v) ts -> tv_ok v) ->
    ((exists ts', append_traits ts from = (ts', Ok tt)) <-> traits_compatible ts from).
  Proof.
    induction from as [|[i v] from IH]; intros ts [D F] W.
    - cbn. split; [intros _ t x y _ C; discriminate|eauto].
    - cbn [append_traits]. destruct D as [D1 D2]. inversion F as [|? ? [M Wv] F']; subst. cbn in M, Wv.
      destruct (apply_with_value ts i v) as [ts1 r] eqn:A.
      assert (Fr := fun t => apply_frame _ _ _ _ _ t A).
      assert (Hi : hm_get sid_key_eqb i from = None) by (apply hm_get_None_In; eauto).
      assert (Wo : forall o, trait_named i ts = Some o -> tv_ok o).
      { intros o G. unfold trait_named in G. apply hm_get_Some_In in G as (k & I & _). eauto. }
      assert (Cmp : traits_compatible ts ((i, v) :: from) <->
                    (forall o, trait_named i ts = Some o -> exists z, combine_trait o v z) /\ traits_compatible ts1 from).
      { split.
        - intros C. split.
          + intros o G. apply (C i o v G). unfold trait_named. cbn. rewrite (eqv_refl _ sid_key_equiv). reflexivity.
          + intros t x y G1 G2. destruct (sid_key_eqb i t) eqn:E.
            * unfold trait_named in G2. rewrite <- (hm_get_cong _ sid_key_equiv _ _ _ E) in G2. congruence.
            * rewrite Fr in G1 by assumption. apply (C t x y G1). unfold trait_named. cbn. rewrite E. exact G2.
        - intros [C1 C2] t x y G1 G2. unfold trait_named in G2. cbn in G2. destruct (sid_key_eqb i t) eqn:E.
          + injection G2 as <-. apply C1. unfold trait_named in *. rewrite (hm_get_cong _ sid_key_equiv _ _ _ E). assumption.
          + apply (C2 t); [rewrite Fr by assumption; assumption|assumption]. }
      rewrite Cmp. clear Cmp. unfold apply_with_value in A. apply sid_is_member_false in M. rewrite M in A.
      destruct (trait_named i ts) as [o|] eqn:Go.
      + destruct (merge_traits_err i o v) as [[c Em]|Em]; rewrite Em in A; injection A as <- <-.
        * rewrite IH; [split; [intros; split; auto|tauto]|split; assumption|].
          -- intros o' E. injection E as <-. exists c. apply (merge_traits_spec i); auto.
          -- intros i' v' I. apply hm_insert_In in I as [I|(-> & _)]; eauto with equivb.
             apply (merge_traits_spec i) in Em; auto. specialize (Wo _ eq_refl).
             inversion Em as [|? ? ? CV]; subst; cbn in *; [exact I|]. inversion CV; subst; auto.
             inversion Wo; inversion Wv; subst. constructor. apply Forall_app; auto.
        * split; [intros [ts' E]; discriminate|]. intros [C _]. destruct (C _ eq_refl) as [z Cz].
          apply (merge_traits_spec i) in Cz; auto. congruence.
      + injection A as <- <-. rewrite IH; [split; [intros; split; [discriminate|auto]|tauto]|split; assumption|].
        intros i' v' I. apply hm_insert_In in I as [I|(-> & _)]; eauto with equivb.
  Qed.
End WithHasher.
