(** What iterating the maps of a model in other orders does to queries, validation and linting. *)
From Verif.Model Require Import SemModel Actions Query.
From Verif.Spec Require Import ModelSpec ReorderSpec ActionsSpec.
From Verif.Proofs Require Import BaseFacts IdentityFacts HashMapFacts ActionFacts ReorderFacts ReorderEquiv.

(** ** Lists *)
Lemma reordered_flat_map {K V C} (R : V -> V -> Prop) (f g : K * V -> list C) a b :
  (forall k x y, In (k, x) a -> R x y -> Permutation (f (k, x)) (g (k, y))) ->
  reordered R a b -> Permutation (flat_map f a) (flat_map g b).
Proof.
  intros E (a' & P & F). rewrite (Permutation_flat_map f P).
  assert (E' : forall k x y, In (k, x) a' -> R x y -> Permutation (f (k, x)) (g (k, y))).
  { intros k x y I. apply E. eapply Permutation_in; [apply Permutation_sym, P|exact I]. }
  clear E P. revert E'. induction F as [|[k x] [k' y] a' b [Ek Rxy] F IH]; intros E'; cbn [flat_map]; [constructor|].
  cbn [fst snd] in Ek, Rxy. subst k'. apply Permutation_app; [apply E'; [left; reflexivity|exact Rxy]|].
  apply IH. intros k2 x2 y2 I. apply E'. right. exact I.
Qed.
Lemma reordered_keys {K V} (R : V -> V -> Prop) (a b : list (K * V)) : reordered R a b -> Permutation (hm_keys a) (hm_keys b).
Proof.
  intros RO. unfold hm_keys.
  destruct RO as (a' & P & F). rewrite (Permutation_map fst P). clear P.
  induction F as [|x y a' b [E _] F IH]; cbn; [constructor|]. rewrite E. constructor. exact IH.
Qed.
Lemma values_flat_map {K V C} (f : V -> list C) (a : list (K * V)) : flat_map f (hm_values a) = flat_map (fun e => f (snd e)) a.
Proof. unfold hm_values. induction a as [|x a IH]; cbn; [reflexivity|]. rewrite IH. reflexivity. Qed.
Lemma filter_flat_map {A} (p : A -> bool) l : filter p l = flat_map (fun x => if p x then [x] else []) l.
Proof. induction l as [|x l IH]; cbn; [reflexivity|]. destruct (p x); cbn; rewrite IH; reflexivity. Qed.
Lemma contains_keys {K V} (keq : K -> K -> bool) k (a : list (K * V)) : hm_contains keq k a = existsb (fun x => keq x k) (hm_keys a).
Proof.
  unfold hm_contains, hm_keys. induction a as [|[x v] a IH]; cbn; [reflexivity|]. destruct (keq x k); [reflexivity|exact IH].
Qed.
Lemma existsb_perm {A} (p : A -> bool) a b : Permutation a b -> existsb p a = existsb p b.
Proof. induction 1; cbn; try congruence. destruct (p x), (p y); reflexivity. Qed.

Section WithHasher.
  Context `{Hasher}.

  Definition kept (f : shape_kind -> bool) : Prop := forall a b, reorder_body a b -> f a = f b.
  Lemma kept_unresolved : kept is_unresolved. Proof. intros a b R; inversion R; subst; reflexivity. Qed.
  Lemma kept_service : kept is_service. Proof. intros a b R; inversion R; subst; reflexivity. Qed.
  Lemma kept_operation : kept is_operation. Proof. intros a b R; inversion R; subst; reflexivity. Qed.
  Lemma kept_resource : kept is_resource. Proof. intros a b R; inversion R; subst; reflexivity. Qed.
  Lemma kept_type t : forall a b, reorder_shape a b -> match_by_shape_type t a = match_by_shape_type t b.
  Proof. intros a b (_ & _ & R). unfold match_by_shape_type. destruct R, t; reflexivity. Qed.

  Lemma shapes_flat_map {C} (f g : shape -> list C) m1 m2 :
    reorder_model m1 m2 -> (forall s t, stored m1 s -> reorder_shape s t -> Permutation (f s) (g t)) ->
    Permutation (flat_map f (shapes m1)) (flat_map g (shapes m2)).
  Proof.
    intros (_ & _ & R) E. unfold shapes. rewrite !values_flat_map. eapply reordered_flat_map; [|exact R].
    intros k x y I Rxy. cbn [snd]. apply E; [exists k; exact I|exact Rxy].
  Qed.

  (** ** Names *)
  Lemma shape_names_order m1 m2 : reorder_model m1 m2 -> Permutation (shape_names m1) (shape_names m2).
  Proof.
    intros R. unfold shape_names. rewrite !filter_flat_map, !flat_map_concat_map, !concat_map, !map_map, <- !flat_map_concat_map.
    apply shapes_flat_map; [exact R|]. intros s t _ (E & _ & B). rewrite (kept_unresolved _ _ B). destruct (is_unresolved (ts_body t)); cbn; [|rewrite E]; reflexivity.
  Qed.
  Lemma unresolved_names_order m1 m2 : reorder_model m1 m2 -> Permutation (unresolved_shape_names m1) (unresolved_shape_names m2).
  Proof.
    intros R. unfold unresolved_shape_names. rewrite !filter_flat_map, !flat_map_concat_map, !concat_map, !map_map, <- !flat_map_concat_map.
    apply shapes_flat_map; [exact R|]. intros s t _ (E & _ & B). rewrite (kept_unresolved _ _ B). destruct (is_unresolved (ts_body t)); cbn; [rewrite E|]; reflexivity.
  Qed.
  Lemma is_complete_order m1 m2 : reorder_model m1 m2 -> is_complete m1 = is_complete m2.
  Proof.
    intros (_ & _ & a' & P & F). unfold is_complete, shapes, hm_values. f_equal. rewrite (existsb_perm _ _ _ (Permutation_map snd P)). clear P.
    induction F as [|x y a b [_ (_ & _ & B)] F IH]; cbn; [reflexivity|]. rewrite (kept_unresolved _ _ B), IH. reflexivity.
  Qed.
  Lemma model_shape_order m1 m2 id : keys_ok m1 -> reorder_model m1 m2 -> opt_rel reorder_shape (model_shape m1 id) (model_shape m2 id).
  Proof. intros (_ & D & _) (_ & _ & R). exact (reordered_get sid_key_eqb sid_key_equiv _ _ _ id D R). Qed.

  (** ** Validation *)
  Lemma nur_order m1 m2 : reorder_model m1 m2 -> Permutation (flat_map nur_shape (shapes m1)) (flat_map nur_shape (shapes m2)).
  Proof.
    intros R. apply shapes_flat_map; [exact R|]. intros s t _ (E & _ & B). unfold nur_shape. rewrite E. destruct B; reflexivity.
  Qed.
  Section Pair.
    Variables (m1 m2 : model).
    Hypotheses (K : keys_ok m1) (R : reorder_model m1 m2).
    Lemma check_type_order s n t : check_type_only s n t m1 = check_type_only s n t m2.
    Proof.
      unfold check_type_only. pose proof (model_shape_order m1 m2 t K R) as G.
      destruct (model_shape m1 t) as [x|], (model_shape m2 t) as [y|]; cbn in G; try contradiction; [|reflexivity].
      destruct G as (_ & _ & B). rewrite (kept_service _ _ B), (kept_operation _ _ B), (kept_resource _ _ B). reflexivity.
    Qed.
    Lemma check_operation_order s n t : check_operation_only s t m1 n = check_operation_only s t m2 n.
    Proof.
      unfold check_operation_only. pose proof (model_shape_order m1 m2 t K R) as G.
      destruct (model_shape m1 t) as [x|], (model_shape m2 t) as [y|]; cbn in G; try contradiction; [|reflexivity].
      destruct G as (_ & _ & B). rewrite (kept_operation _ _ B). reflexivity.
    Qed.
    Lemma check_resource_order s n t : check_resource_only s t m1 n = check_resource_only s t m2 n.
    Proof.
      unfold check_resource_only. pose proof (model_shape_order m1 m2 t K R) as G.
      destruct (model_shape m1 t) as [x|], (model_shape m2 t) as [y|]; cbn in G; try contradiction; [|reflexivity].
      destruct G as (_ & _ & B). rewrite (kept_resource _ _ B). reflexivity.
    Qed.
    Lemma opt_check_ext o f g : (forall t, f t = g t) -> opt_check o f = opt_check o g.
    Proof. intros E. destruct o; cbn; [apply E|reflexivity]. Qed.
    Lemma ctr_shape_model s : ctr_shape m1 s = ctr_shape m2 s.
    Proof.
      unfold ctr_shape. destruct (ts_body s); try reflexivity; rewrite ?check_type_order; try reflexivity.
      all: repeat match goal with |- _ ++ _ = _ ++ _ => apply (f_equal2 (@app issue)) end.
      all: try (apply flat_map_ext; intros); try apply opt_check_ext; intros;
        first [apply check_type_order|apply check_operation_order|apply check_resource_order].
    Qed.
    Lemma ctr_shape_order s t : reorder_shape s t -> Permutation (ctr_shape m2 s) (ctr_shape m2 t).
    Proof.
      intros (E & T & B). unfold ctr_shape. rewrite E. destruct B as [? ? (E1 & E2 & _)|? ? (E1 & E2 & _)|? ? ? ? (E1 & E2 & _) (E3 & E4 & _)|? ? RM|? ? RM|? ? (E1 & E2 & E3 & P)|? ? RR|b].
      - rewrite E1, E2; reflexivity.
      - rewrite E1, E2; reflexivity.
      - rewrite E1, E2, E3, E4; reflexivity.
      - eapply reordered_flat_map; [|exact RM]. intros k x y _ (E1 & E2 & _). cbn [snd]. rewrite E1, E2. reflexivity.
      - eapply reordered_flat_map; [|exact RM]. intros k x y _ (E1 & E2 & _). cbn [snd]. rewrite E1, E2. reflexivity.
      - rewrite E2, E3. reflexivity.
      - destruct RR as (P & -> & -> & -> & -> & -> & -> & -> & -> & ->). apply Permutation_app_tail. apply Permutation_flat_map, P.
      - destruct b; try reflexivity. apply reordered_keys in T. unfold hm_keys in T.
        destruct (ts_traits s), (ts_traits t); cbn in T |- *; try reflexivity; apply Permutation_length in T; discriminate.
    Qed.
    Lemma ctr_order : Permutation (flat_map (ctr_shape m1) (shapes m1)) (flat_map (ctr_shape m2) (shapes m2)).
    Proof. apply shapes_flat_map; [exact R|]. intros s t _ S. rewrite ctr_shape_model. apply ctr_shape_order, S. Qed.
  End Pair.

  (** ** Naming conventions *)
  Section Lint.
    Variables (camel mixed snake : str -> str).
    Lemma nc_applied_order a b : reorder_traits a b -> Permutation (nc_applied mixed a) (nc_applied mixed b).
    Proof. intros R. unfold nc_applied. apply Permutation_flat_map. eapply reordered_keys, R. Qed.
    Lemma nc_shape_order s t : reorder_shape s t -> Permutation (nc_shape camel mixed s) (nc_shape camel mixed t).
    Proof.
      intros (E & T & B). unfold nc_shape. rewrite E.
      assert (HT : has_trait trait_trait (ts_traits s) = has_trait trait_trait (ts_traits t)).
      { unfold has_trait. rewrite !contains_keys. apply existsb_perm. eapply reordered_keys, T. }
      rewrite HT. apply Permutation_app_head. apply Permutation_app; [apply nc_applied_order, T|].
      assert (M : forall x y : members, reordered reorder_member x y ->
        Permutation (flat_map (fun e => nc_member_name mixed (ms_id (snd e)) (ts_id t) ++ nc_shape_name camel (ms_target (snd e)) true ++ nc_applied mixed (ms_traits (snd e))) x)
                    (flat_map (fun e => nc_member_name mixed (ms_id (snd e)) (ts_id t) ++ nc_shape_name camel (ms_target (snd e)) true ++ nc_applied mixed (ms_traits (snd e))) y)).
      { intros x y RM. eapply reordered_flat_map; [|exact RM]. intros k u v _ (E1 & E2 & Tm). cbn [snd]. rewrite E1, E2.
        do 2 apply Permutation_app_head. apply nc_applied_order, Tm. }
      destruct B as [| | | | | | |b]; try reflexivity; apply M; assumption.
    Qed.
    Lemma nc_order m1 m2 : reorder_model m1 m2 -> Permutation (flat_map (nc_shape camel mixed) (shapes m1)) (flat_map (nc_shape camel mixed) (shapes m2)).
    Proof. intros R. apply shapes_flat_map; [exact R|]. intros s t _ S. apply nc_shape_order, S. Qed.

    (** ** Unwelcome terms *)
    Lemma mentions_order s t : reorder_shape s t -> Permutation (mentions s) (mentions t).
    Proof.
      intros (E & T & B). unfold mentions. rewrite E. apply Permutation_app_head. apply Permutation_app; [apply Permutation_flat_map; eapply reordered_keys, T|].
      assert (M : forall x y : members, reordered reorder_member x y ->
        Permutation (id_mentions (ts_id t) ++ flat_map (fun e => member_mentions s (snd e)) x) (id_mentions (ts_id t) ++ flat_map (fun e => member_mentions t (snd e)) y)).
      { intros x y RM. apply Permutation_app_head. eapply reordered_flat_map; [|exact RM]. intros k u v _ (E1 & E2 & Tm). cbn [snd].
        unfold member_mentions. rewrite E, E1, E2. do 2 apply Permutation_app_head. apply Permutation_flat_map. eapply reordered_keys, Tm. }
      destruct B as [| | | | | | |b]; try reflexivity; try (apply M; assumption).
      destruct b; try reflexivity; apply M, reordered_refl, reorder_member_refl.
    Qed.
    Lemma all_mentions_order m1 m2 : reorder_model m1 m2 -> Permutation (all_mentions m1) (all_mentions m2).
    Proof. intros R. apply shapes_flat_map; [exact R|]. intros s t _ S. apply mentions_order, S. Qed.

    Lemma firsts_names l l' :
      (forall a b, In a (map fst l) -> In b (map fst l) -> ident_key_eqb a b = true -> a = b) ->
      Permutation l l' -> Permutation (map fst (firsts [] l)) (map fst (firsts [] l')).
    Proof.
      intros NC P.
      assert (ND : forall k, NoDup (map fst (firsts [] k))).
      { intros k. destruct (firsts_distinct camel mixed snake k []) as [O _]. induction O as [|x k' Fx O IH]; cbn; constructor; [|exact IH].
        intros I. apply in_map_iff in I as (y & E & I). rewrite Forall_forall in Fx. specialize (Fx _ I). rewrite E in Fx.
        destruct ident_key_equiv as [RF _ _]. rewrite RF in Fx. discriminate. }
      assert (X : forall k k', Permutation l k -> Permutation l k' -> incl (map fst (firsts [] k)) (map fst (firsts [] k'))).
      { intros k k' P1 P2 n I. apply in_map_iff in I as ([n0 i] & E & I). cbn in E. subst n0. apply firsts_incl in I.
        assert (I' : In (n, i) k') by (eapply Permutation_in; [exact P2|]; eapply Permutation_in; [apply Permutation_sym, P1|exact I]).
        destruct (firsts_covers k' [] n i I') as [C|(n' & i' & In' & E)]; [discriminate|].
        apply NC in E; [subst n'; apply in_map_iff; exists (n, i'); auto| |].
        - apply (Permutation_in _ (Permutation_sym (Permutation_map fst P2))), in_map_iff. exists (n', i'). split; [reflexivity|]. eapply firsts_incl, In'.
        - apply (Permutation_in _ (Permutation_sym (Permutation_map fst P2))), in_map_iff. exists (n, i). auto. }
      apply NoDup_Permutation; [apply ND|apply ND|]. intros n. split; apply X; auto.
    Qed.
    Lemma report_messages l : map i_message (flat_map (report snake) l) = flat_map (fun n => map ut_message (filter is_unwelcome_term (split_words snake n))) (map fst l).
    Proof.
      induction l as [|x l IH]; cbn; [reflexivity|]. rewrite map_app, IH. f_equal. unfold report. rewrite map_map. reflexivity.
    Qed.
  End Lint.

  (** ** Queries *)
  Inductive same_projection : projection -> projection -> Prop :=
  | sp_empty : same_projection PrEmpty PrEmpty
  | sp_shapes a b : Permutation a b -> same_projection (PrShapes a) (PrShapes b).
  Definition same_answer (a b : result projection) : Prop :=
    match a, b with Ok x, Ok y => same_projection x y | Err _, Err _ | Panic, Panic => True | _, _ => False end.
  Lemma filter_perm' {A} (p q : A -> bool) a b : (forall x, p x = q x) -> Permutation a b -> Permutation (filter p a) (filter q b).
  Proof.
    intros E P. rewrite (filter_ext _ _ E). clear E. induction P; cbn; [constructor|destruct (q x); [constructor|]; assumption| |etransitivity; eassumption].
    destruct (q x), (q y); try reflexivity. constructor.
  Qed.
  Lemma query_order m1 m2 : keys_ok m1 -> reorder_model m1 m2 -> forall sel, same_answer (query sel m1) (query sel m2).
  Proof.
    intros K R sel. unfold query.
    assert (S : same_answer (Ok (PrShapes (shape_names m1))) (Ok (PrShapes (shape_names m2)))) by (constructor; apply shape_names_order, R).
    revert S. generalize (@Ok projection (PrShapes (shape_names m1))) (@Ok projection (PrShapes (shape_names m2))).
    induction sel as [|e sel IH]; intros a b S; cbn [fold_left]; [exact S|]. apply IH.
    destruct a as [x|e1|], b as [y|e2|]; cbn in S |- *; try contradiction; try exact I.
    destruct e; cbn [query_one]; try exact I; try exact S.
    destruct S as [|a b P]; cbn; constructor. apply filter_perm'; [|exact P]. intros id.
    pose proof (model_shape_order m1 m2 id K R) as G. destruct (model_shape m1 id), (model_shape m2 id); cbn in G; try contradiction; [|reflexivity].
    apply kept_type, G.
  Qed.
End WithHasher.
