(** Idempotence, order independence, failure and panics of merging. *)
From Verif.Model Require Import SemModel.
From Verif.Spec Require Import ModelSpec.
From Verif.Proofs Require Import HashMapFacts ValueFacts ShapeFacts ModelFacts.

Lemma combine_value_sym a b c : value_ok a -> value_ok b -> combine_value a b c -> exists d, combine_value b a d.
Proof.
  intros Wa Wb C. inversion C; subst; [eexists; constructor|]. exists b. constructor; [tauto|].
  apply same_value_sym; assumption.
Qed.
Lemma combine_value_pair a b c d :
  value_ok a -> value_ok b -> ~ (is_array_value a /\ is_array_value b) ->
  combine_value a b c -> combine_value b a d -> same_value c d.
Proof.
  intros Wa Wb N C D. inversion C; subst; [exfalso; apply N; unfold is_array_value; eauto|].
  inversion D; subst; [exfalso; apply N; unfold is_array_value; eauto|]. assumption.
Qed.
Lemma combine_trait_sym a b c : tv_ok a -> tv_ok b -> combine_trait a b c -> exists d, combine_trait b a d.
Proof.
  intros Wa Wb C. inversion C; subst; [eexists; constructor|].
  match goal with h : combine_value _ _ _ |- _ => apply combine_value_sym in h as [d D]; auto end.
  exists (Some d). constructor. assumption.
Qed.

Section WithHasher.
  Context `{Hasher}.

  (** ** Idempotence *)
  Lemma merge_traits_self i v : (match v with Some x => merge_stable x | None => True end) -> tv_ok v -> merge_traits i v v = Ok v.
  Proof.
    destruct v as [v|]; [|reflexivity]. intros [S A] W. apply merge_traits_spec; auto. constructor.
    destruct v; try (apply cv_equal; [intros [[? ?] _]; discriminate|assumption]).
    rewrite (A _ eq_refl). constructor.
  Qed.
  Lemma append_traits_self ts : traits_ok ts -> stable_traits ts ->
    forall l, incl l ts -> append_traits ts l = (ts, Ok tt).
  Proof.
    intros [D F] S. unfold stable_traits in S. rewrite Forall_forall in F, S.
    induction l as [|[i v] l IH]; intros I; cbn; [reflexivity|].
    assert (Iv : In (i, v) ts) by (apply I; left; reflexivity).
    unfold apply_with_value. destruct (F _ Iv) as [M W]. cbn in M, W. apply sid_is_member_false in M. rewrite M.
    assert (G : trait_named i ts = Some v) by (apply hm_get_In; auto with equivb). rewrite G.
    rewrite merge_traits_self; [|exact (S _ Iv)|exact W]. rewrite (hm_insert_same sid_key_eqb); [|assumption].
    apply IH. intros x Hx. apply I. right; assumption.
  Qed.
  Lemma equal_without_traits_refl s : body_ok (ts_body s) -> equal_without_traits s s = Ok true.
  Proof. intros W. apply equal_without_traits_true; auto using same_id_refl, same_structure_refl. Qed.

  Lemma shape_eta s : Shape (ts_id s) (ts_traits s) (ts_body s) = s. Proof. destruct s; reflexivity. Qed.
  Lemma add_shape_self m s : model_ok m -> stable_model m -> In (ts_id s, s) (m_shapes m) -> add_shape m s = (m, Ok tt).
  Proof.
    intros W [_ S] I. assert (E := model_entries_ok m W). destruct W as ((K1 & K2 & K3) & Ws & _).
    rewrite Forall_forall in Ws, S. destruct E as [_ E]. rewrite Forall_forall in E. destruct (E _ I) as (_ & Wsh & R). cbn in R.
    assert (G : model_shape m (ts_id s) = Some s) by (apply model_shape_In; auto).
    assert (A : append_traits (ts_traits s) (ts_traits s) = (ts_traits s, Ok tt)).
    { apply append_traits_self; [apply Wsh|apply (S _ I)|apply incl_refl]. }
    assert (B : merged_body (ts_body s) (ts_body s) = ts_body s) by (destruct (ts_body s); reflexivity).
    destruct (add_shape m s) as [m' r] eqn:AS. pose proof (add_shape_cases m s) as C. rewrite AS in C. cbn in C.
    destruct C as [M U|W' F'|e W' F' N1 N2 Q|e W' F' N1 N2 Q|e ts r W' F' C A']; try congruence.
    - destruct R; congruence.
    - assert (e = s) by congruence. subst e. rewrite equal_without_traits_refl in Q by apply Wsh. discriminate.
    - assert (e = s) by congruence. subst e. rewrite equal_without_traits_refl in Q by apply Wsh. discriminate.
    - assert (e = s) by congruence. subst e. rewrite A in A'. injection A' as <- <-. rewrite B, shape_eta.
      f_equal. unfold update_shape. rewrite hm_update_same by assumption. destruct m; reflexivity.
  Qed.
  Lemma merge_self m : model_ok m -> stable_model m -> merge m m = (m, Ok tt).
  Proof.
    intros W S. unfold merge. destruct (m_version m); cbn.
    assert (A : forall l, incl l (m_metadata m) -> merge_metadata m l = (m, Ok tt)).
    { destruct W as ((_ & _ & K3) & _ & Wv), S as [S _]. rewrite Forall_forall in Wv, S.
      induction l as [|[k v] l IH]; intros I; cbn; [reflexivity|].
      assert (Iv : In (k, v) (m_metadata m)) by (apply I; left; reflexivity).
      assert (G : metadata_value m k = Some v) by (apply hm_get_In; auto with equivb).
      assert (AM : exists r, add_metadata m k v = (m, Ok r)).
      { unfold add_metadata. rewrite G. destruct (S _ Iv) as [Sv Sa]. cbn in Sv, Sa.
        assert (Wk := Wv _ Iv). cbn in Wk. assert (Eq := proj2 (value_eqb_spec _ _ Wk Wk) Sv).
        destruct v; try (rewrite Eq; eauto; fail).
        rewrite (Sa _ eq_refl) in *. cbn [app]. rewrite (hm_insert_same str_eqb) by exact G. destruct m; eexists; reflexivity. }
      destruct AM as [r ->]. apply IH. intros x Hx. apply I. right; assumption. }
    rewrite A by apply incl_refl.
    assert (B : forall l, incl l (m_shapes m) -> merge_shapes m l = (m, Ok tt)).
    { induction l as [|[k s] l IH]; intros I; cbn; [reflexivity|].
      assert (Is : In (k, s) (m_shapes m)) by (apply I; left; reflexivity).
      assert (k = ts_id s) by (apply W in Is; tauto). subst k. rewrite add_shape_self by assumption.
      apply IH. intros x Hx. apply I. right; assumption. }
    apply B, incl_refl.
  Qed.

  (** ** Order independence *)
  Lemma trait_ok ts t v : traits_ok ts -> trait_named t ts = Some v -> tv_ok v.
  Proof.
    intros [_ F] G. unfold trait_named in G. apply hm_get_Some_In in G as (k & I & _).
    rewrite Forall_forall in F. apply (F _ I).
  Qed.
  Lemma model_shape_ok m id s : model_ok m -> model_shape m id = Some s -> shape_ok s.
  Proof.
    intros (_ & W & _) G. unfold model_shape in G. apply hm_get_Some_In in G as (k & I & _).
    rewrite Forall_forall in W. apply (W _ I).
  Qed.
  Lemma metadata_ok m k v : model_ok m -> metadata_value m k = Some v -> value_ok v.
  Proof.
    intros (_ & _ & W) G. unfold metadata_value in G. apply hm_get_Some_In in G as (k' & I & _).
    rewrite Forall_forall in W. apply (W _ I).
  Qed.
  Lemma shapes_compatible_sym a b : shape_ok a -> shape_ok b -> shapes_compatible a b -> shapes_compatible b a.
  Proof.
    intros Wa Wb [B T]. split.
    - destruct B as [B|[B|B]]; unfold bodies_compatible; auto. right; right. apply same_structure_sym; assumption.
    - intros t x y Gx Gy. destruct (T t y x Gy Gx) as [z C].
      eapply combine_trait_sym; [| |exact C]; [exact (trait_ok _ _ _ (proj1 Wa) Gy)|exact (trait_ok _ _ _ (proj1 Wb) Gx)].
  Qed.
  Lemma models_compatible_sym a b : model_ok a -> model_ok b -> models_compatible a b -> models_compatible b a.
  Proof.
    intros Wa Wb [M S]. split.
    - intros k x y Gx Gy. destruct (M k y x Gy Gx) as [z C]. eapply combine_value_sym; [| |exact C]; [exact (metadata_ok _ _ _ Wa Gy)|exact (metadata_ok _ _ _ Wb Gx)].
    - intros id x y Gx Gy. apply shapes_compatible_sym; eauto;
        [exact (model_shape_ok _ _ _ Wa Gy)|exact (model_shape_ok _ _ _ Wb Gx)].
  Qed.
  Lemma merge_commutes a b :
    model_ok a -> model_ok b ->
    (snd (merge a b) = Ok tt <-> snd (merge b a) = Ok tt)
    /\ (no_array_clash a b -> snd (merge a b) = Ok tt -> similar_model (fst (merge a b)) (fst (merge b a))).
  Proof.
    intros Wa Wb. destruct (merge_spec a b Wa Wb) as [Iab Sab]. destruct (merge_spec b a Wb Wa) as [Iba Sba].
    assert (Iff : snd (merge a b) = Ok tt <-> snd (merge b a) = Ok tt).
    { rewrite Iab, Iba. split; apply models_compatible_sym; assumption. }
    split; [exact Iff|]. intros [NM NS] R. destruct (Sab R) as (V1 & M1 & S1). apply Iff in R.
    destruct (Sba R) as (V2 & M2 & S2). split; [destruct (m_version (fst (merge a b))), (m_version (fst (merge b a))); reflexivity|]. split.
    - intros k. specialize (M1 k). specialize (M2 k). specialize (NM k).
      destruct (metadata_value a k) as [x|] eqn:Ea, (metadata_value b k) as [y|] eqn:Eb.
      + destruct M1 as (c & -> & C), M2 as (d & -> & D). cbn. right.
        eapply combine_value_pair; [exact (metadata_ok _ _ _ Wa Ea)|exact (metadata_ok _ _ _ Wb Eb)| |exact C|exact D].
        apply NM; reflexivity.
      + rewrite M1, M2. cbn. left; reflexivity.
      + rewrite M1, M2. cbn. left; reflexivity.
      + rewrite M1, M2. exact I.
    - intros id. specialize (S1 id). specialize (S2 id). specialize (NS id).
      assert (KS : forall m x s, model_ok m -> model_shape m x = Some s -> same_id (ts_id s) x).
      { intros m x s W G. apply model_shape_Some_In in G as [_ G]; [|apply W]. apply sid_eqb_same, sid_key_eqb_eq, G. }
      assert (RF : forall s, similar_shape s s).
      { intros s. split; [apply same_id_refl|]. split; [left; reflexivity|]. intros t. apply opt_rel_refl. left; reflexivity. }
      destruct (model_shape a id) as [x|] eqn:Ea, (model_shape b id) as [y|] eqn:Eb.
      2,3: rewrite S1, S2; cbn; apply RF.
      2: rewrite S1, S2; exact I.
      destruct S1 as (c & -> & (C1 & C2 & C3)), S2 as (d & -> & (D1 & D2 & D3)). cbn. split; [|split].
      + rewrite C1, D1. apply same_id_trans with id; [exact (KS _ _ _ Wa Ea)|]. apply same_id_sym. exact (KS _ _ _ Wb Eb).
      + rewrite C2, D2.
        assert (BC : bodies_compatible (ts_body x) (ts_body y)).
        { apply Iba in R. destruct R as [_ R]. specialize (R id y x Eb Ea). destruct R as [[B|[B|B]] _]; unfold bodies_compatible; auto.
          right; right; apply same_structure_sym; assumption. }
        destruct BC as [E|[E|E]].
        * rewrite E. left. destruct (ts_body y); reflexivity.
        * rewrite E. left. destruct (ts_body x); reflexivity.
        * right. inversion E; subst; cbn; rewrite <- ?H0, <- ?H1, <- ?H2 in *; assumption.
      + intros t. specialize (C3 t). specialize (D3 t).
        destruct (trait_named t (ts_traits x)) as [u|] eqn:Eu, (trait_named t (ts_traits y)) as [v|] eqn:Ev.
        * destruct C3 as (c' & -> & C), D3 as (d' & -> & D). cbn. right.
          inversion C; subst; inversion D; subst; cbn; [exact I|].
          match goal with h : combine_value ?a ?b ?c, h' : combine_value ?b ?a ?d |- same_value ?c ?d =>
            eapply combine_value_pair; [| | |exact h|exact h'] end.
          -- eapply (trait_ok _ _ _ (proj1 (model_shape_ok _ _ _ Wa Ea)) Eu).
          -- eapply (trait_ok _ _ _ (proj1 (model_shape_ok _ _ _ Wb Eb)) Ev).
          -- eapply NS; eauto.
        * rewrite C3, D3. left; reflexivity.
        * rewrite C3, D3. left; reflexivity.
        * rewrite C3, D3. exact I.
  Qed.

  (** ** A failing merge *)
  Definition kept (m m' : model) : Prop :=
    (forall id e, model_shape m id = Some e ->
       exists e', model_shape m' id = Some e' /\ ts_id e' = ts_id e /\ (ts_body e <> KUnresolved -> ts_body e' = ts_body e))
    /\ (forall k, metadata_value m k <> None -> metadata_value m' k <> None).
  Lemma kept_refl m : kept m m. Proof. split; eauto. Qed.
  Lemma kept_trans a b c : kept a b -> kept b c -> kept a c.
  Proof.
    intros [A1 A2] [B1 B2]. split; [|eauto]. intros id e G. destruct (A1 _ _ G) as (e' & G' & I1 & Bd1).
    destruct (B1 _ _ G') as (e'' & G'' & I2 & Bd2). exists e''. split; [assumption|]. split; [congruence|].
    intros N. specialize (Bd1 N). rewrite Bd2; [assumption|congruence].
  Qed.
  Lemma add_shape_kept m s : kept m (fst (add_shape m s)).
  Proof.
    split.
    - intros id e G. destruct (sid_key_eqb (ts_id s) id) eqn:E.
      + rewrite <- (model_shape_cong _ _ _ E) in G. rewrite <- (model_shape_cong _ _ _ E).
        destruct (add_shape_existing m s e G) as (e' & ? & ? & ? & _). eauto.
      + rewrite add_shape_frame by assumption. eauto.
    - intros k. unfold metadata_value. rewrite add_shape_metadata. auto.
  Qed.
  Lemma add_metadata_kept m k v : kept m (fst (add_metadata m k v)).
  Proof.
    split.
    - intros id e G. unfold model_shape in *. rewrite (proj1 (add_metadata_shapes m k v)). eauto.
    - intros x N. unfold add_metadata. destruct (metadata_value m k) as [o|] eqn:E.
      + destruct o, v; cbn [fst]; try (destruct (value_eqb _ _); assumption).
        rewrite metadata_insert. destruct (str_eqb k x); [discriminate|assumption].
      + cbn [fst]. rewrite metadata_insert. destruct (str_eqb k x); [discriminate|assumption].
  Qed.
  Lemma merge_kept m o : kept m (fst (merge m o)).
  Proof.
    unfold merge. destruct (negb _); [apply kept_refl|].
    assert (A : forall l m, kept m (fst (merge_metadata m l))).
    { induction l as [|[k v] l IH]; intros m0; cbn; [apply kept_refl|].
      pose proof (add_metadata_kept m0 k v) as K. destruct (add_metadata m0 k v) as [m' [| |]]; cbn in *; auto.
      eapply kept_trans; eauto. }
    assert (B : forall l m, kept m (fst (merge_shapes m l))).
    { induction l as [|[k s] l IH]; intros m0; cbn; [apply kept_refl|].
      pose proof (add_shape_kept m0 s) as K. destruct (add_shape m0 s) as [m' [| |]]; cbn in *; auto.
      eapply kept_trans; eauto. }
    specialize (A (m_metadata o) m). destruct (merge_metadata m (m_metadata o)) as [m' [| |]]; cbn in *; auto.
    eapply kept_trans; eauto.
  Qed.

  (** ** Panics *)
  Lemma member_mismatch_names a b : member_mismatch a b <-> names_differ a b.
  Proof.
    unfold member_mismatch, names_differ. destruct a, b; try reflexivity; unfold hm_keys;
      (split; intros [L (k & R)]; (split; [assumption|]);
       [destruct R as [I G]; apply in_map_iff in I as ([k' m] & <- & I); eauto
       |destruct R as (m & I & G); exists k; split; [apply in_map_iff; exists (k, m); auto|assumption]]).
  Qed.
  Lemma merge_shapes_panic l : forall m,
    distinct sid_key_eqb l -> Forall (fun e => fst e = ts_id (snd e)) l ->
    snd (merge_shapes m l) = Panic ->
    exists k s e, In (k, s) l /\ model_shape m k = Some e /\ names_differ (ts_body e) (ts_body s).
  Proof.
    induction l as [|[k s] l IH]; intros m D F; cbn [merge_shapes snd]; [discriminate|].
    destruct D as [D1 D2]. inversion F as [|? ? Ek F']; subst. cbn in Ek. subst k.
    pose proof (add_shape_panic m s) as P. pose proof (add_shape_frame m s) as Fr.
    destruct (add_shape m s) as [m' r]. cbn [fst snd] in *. destruct r as [u|e|].
    - intros Q. destruct (IH m' D2 F' Q) as (k & s' & e & I & G & N). exists k, s', e.
      split; [right; assumption|]. split; [|assumption]. rewrite <- Fr; [assumption|].
      specialize (D1 _ _ I). rewrite (eqv_sym _ sid_key_equiv). assumption.
    - discriminate.
    - intros _. destruct (P eq_refl) as (_ & e & G & N). exists (ts_id s), s, e. split; [left; reflexivity|].
      split; [assumption|]. apply member_mismatch_names, N.
  Qed.
  Lemma merge_panic m o :
    keys_ok o -> snd (merge m o) = Panic ->
    exists id e s, model_shape m id = Some e /\ model_shape o id = Some s /\ names_differ (ts_body e) (ts_body s).
  Proof.
    intros (K1 & K2 & K3). unfold merge. destruct (negb _); [discriminate|].
    assert (NP : forall l m, snd (merge_metadata m l) <> Panic).
    { induction l as [|[k v] l IH]; intros m0; cbn; [discriminate|].
      unfold add_metadata. destruct (metadata_value m0 k) as [q|]; [|apply IH].
      destruct q, v; try (destruct (value_eqb _ _); [apply IH|discriminate]). apply IH. }
    specialize (NP (m_metadata o) m). pose proof (merge_metadata_shapes (m_metadata o) m) as [S _].
    destruct (merge_metadata m (m_metadata o)) as [m1 [| |]]; cbn in *; try discriminate; [|congruence].
    intros P. apply merge_shapes_panic in P as (k & s & e & I & G & N); auto.
    - exists k, e, s. split; [unfold model_shape in *; rewrite <- S; assumption|]. split; [apply model_shape_In; assumption|assumption].
    - apply Forall_forall. intros [k s] I. cbn. apply K1. assumption.
  Qed.
  (** ** What an interrupted merge leaves *)
  Lemma append_taken from : forall ts,
    traits_ok from -> (forall k v, In (k, v) ts -> tv_ok v) ->
    forall t, taken combine_trait (trait_named t ts) (trait_named t from) (trait_named t (fst (append_traits ts from))).
  Proof.
    induction from as [|[i v] from IH]; intros ts [D F] W t; [left; reflexivity|].
    destruct D as [D1 D2]. inversion F as [|? ? [Mi Wv] F']; subst. cbn in Mi, Wv.
    cbn [append_traits]. destruct (apply_with_value ts i v) as [ts1 r] eqn:A.
    assert (Fr := fun t => apply_frame _ _ _ _ _ t A).
    assert (Hi : hm_get sid_key_eqb i from = None) by (apply hm_get_None_In; eauto).
    assert (Same : r <> Ok tt -> ts1 = ts).
    { intros N. unfold apply_with_value in A. destruct (sid_is_member i); [injection A as <- <-; reflexivity|].
      destruct (trait_named i ts) as [o|]; [destruct (merge_traits _ _ _)|]; injection A as <- <-; congruence. }
    destruct r as [[]|err|]; cbn [fst]; try (rewrite Same by discriminate; left; reflexivity).
    assert (W1 : forall k x, In (k, x) ts1 -> tv_ok x).
    { intros k x I. unfold apply_with_value in A. destruct (sid_is_member i); [discriminate|].
      destruct (trait_named i ts) as [o|] eqn:Go; [destruct (merge_traits i o v) as [c| |] eqn:Em; try discriminate|]; injection A as <-;
        (apply hm_insert_In in I as [I|(-> & _)]; [exact (W _ _ I)| |auto with equivb]).
      - assert (Wo : tv_ok o) by (apply hm_get_Some_In in Go as (k' & I' & _); eauto).
        apply merge_traits_spec in Em; auto. destruct Em as [|a b c C]; [exact I|].
        destruct C as [a b|a b]; cbn in *; [|assumption]. inversion Wo; inversion Wv; subst. constructor. apply Forall_app; auto.
      - exact Wv. }
    specialize (IH ts1 (conj D2 F') W1 t). unfold trait_named at 2. cbn [hm_get].
    destruct (sid_key_eqb i t) eqn:M.
    - assert (Ht : trait_named t from = None).
      { unfold trait_named. rewrite <- (hm_get_cong _ sid_key_equiv _ _ _ M). exact Hi. }
      rewrite Ht in IH. apply apply_ok in A as [_ A]. unfold trait_named in A. rewrite !(hm_get_cong _ sid_key_equiv _ _ _ M) in A.
      fold (trait_named t ts) in A. fold (trait_named t ts1) in A. right.
      destruct (trait_named t ts) as [o|] eqn:Go.
      + destruct A as (c & Em & Gc). exists c. apply merge_traits_spec in Em; auto.
        * split; [|exact Em]. rewrite Gc in IH. destruct IH as [E|[]]; exact E.
        * apply hm_get_Some_In in Go as (k' & I' & _); eauto.
      + rewrite A in IH. destruct IH as [E|[]]. exact E.
    - specialize (Fr t M). rewrite Fr in IH. exact IH.
  Qed.

  Lemma add_shape_taken m s :
    (forall e, model_shape m (ts_id s) = Some e -> shape_ok e /\ same_id (ts_id e) (ts_id s)) -> shape_ok s ->
    taken partly_merged (model_shape m (ts_id s)) (Some s) (model_shape (fst (add_shape m s)) (ts_id s)).
  Proof.
    intros Wm Ws. pose proof (add_shape_cases m s) as C.
    destruct C as [M' U|W' F'|e0 W' F' N1 N2 Q|e0 W' F' N1 N2 Q|e ts r W' F' C A]; try (left; reflexivity).
    - right. rewrite F', model_shape_insert, (eqv_refl _ sid_key_equiv). reflexivity.
    - right. rewrite F', model_shape_update, (eqv_refl _ sid_key_equiv), F'. cbn [option_map].
      eexists. split; [reflexivity|]. destruct (Wm _ F') as [We Ie].
      split; [reflexivity|]. split; [reflexivity|]. split; cbn [ts_body ts_traits].
      + destruct C as [C|[C|C]]; auto. right; right. apply (equal_without_traits_true e s); [apply We|apply Ws|exact Ie|exact C].
      + intros t. pose proof (append_taken (ts_traits s) (ts_traits e) (proj1 Ws)) as T. rewrite A in T. apply T.
        intros k v I. destruct We as [[_ F] _]. rewrite Forall_forall in F. apply (F _ I).
  Qed.
  Lemma merge_shapes_taken l : forall m,
    entries_ok l ->
    (forall k e, hm_get sid_key_eqb k l <> None -> model_shape m k = Some e -> shape_ok e /\ same_id (ts_id e) k) ->
    forall id, taken partly_merged (model_shape m id) (hm_get sid_key_eqb id l) (model_shape (fst (merge_shapes m l)) id).
  Proof.
    induction l as [|[k s] l IH]; intros m [D F] W id; [left; reflexivity|].
    destruct D as [D1 D2]. inversion F as [|? ? (Ek & Ws & Wr) F']; subst. cbn in Ek, Ws, Wr. subst k. cbn [merge_shapes].
    assert (Hk : hm_get sid_key_eqb (ts_id s) l = None) by (apply hm_get_None_In; eauto).
    assert (T : taken partly_merged (model_shape m (ts_id s)) (Some s) (model_shape (fst (add_shape m s)) (ts_id s))).
    { apply add_shape_taken; [|exact Ws]. intros e G. apply W; [|exact G]. cbn. rewrite (eqv_refl _ sid_key_equiv). discriminate. }
    assert (Fr := fun x => add_shape_frame m s x).
    assert (One : taken partly_merged (model_shape m id) (hm_get sid_key_eqb id ((ts_id s, s) :: l)) (model_shape (fst (add_shape m s)) id)).
    { cbn [hm_get]. destruct (sid_key_eqb (ts_id s) id) eqn:M.
      - rewrite <- !(model_shape_cong _ _ _ M). exact T.
      - left. apply Fr, M. }
    destruct (add_shape m s) as [m' r]. cbn [fst] in *. destruct r as [[]|err|]; try exact One.
    assert (IH' : forall id, taken partly_merged (model_shape m' id) (hm_get sid_key_eqb id l) (model_shape (fst (merge_shapes m' l)) id)).
    { apply IH; [split; assumption|]. intros k e N G. destruct (sid_key_eqb (ts_id s) k) eqn:M.
      - exfalso. apply N. rewrite <- (hm_get_cong _ sid_key_equiv _ _ _ M). exact Hk.
      - rewrite Fr in G by exact M. apply W; [|exact G]. cbn [hm_get]. rewrite M. exact N. }
    specialize (IH' id). revert One. cbn [hm_get]. destruct (sid_key_eqb (ts_id s) id) eqn:M; intros One.
    - rewrite <- (hm_get_cong _ sid_key_equiv l _ _ M), Hk in IH'. destruct IH' as [E|X].
      + rewrite E. exact One.
      + destruct (model_shape m' id) as [q|] eqn:Q; [destruct X|]. rewrite X. exact One.
    - rewrite (Fr id M) in IH'. exact IH'.
  Qed.
  Lemma merge_metadata_taken l : forall m,
    distinct str_eqb l -> Forall (fun e => value_ok (snd e)) l ->
    (forall k e, hm_get str_eqb k l <> None -> metadata_value m k = Some e -> value_ok e) ->
    forall k, taken combine_value (metadata_value m k) (hm_get str_eqb k l) (metadata_value (fst (merge_metadata m l)) k).
  Proof.
    induction l as [|[k v] l IH]; intros m D F W x; [left; reflexivity|].
    destruct D as [D1 D2]. inversion F as [|? ? Wv F']; subst. cbn in Wv. cbn [merge_metadata].
    assert (Hk : hm_get str_eqb k l = None) by (apply hm_get_None_In; eauto).
    assert (Fr := fun y => add_metadata_frame m k v y).
    assert (T : taken combine_value (metadata_value m k) (Some v) (metadata_value (fst (add_metadata m k v)) k)).
    { destruct (metadata_value m k) as [o|] eqn:G.
      - assert (Wo : value_ok o). { apply (W k); [|exact G]. cbn. rewrite str_eqb_refl. discriminate. }
        destruct (add_metadata_existing m k v o Wo Wv G) as [(c & r & C & R & G')|[_ E]].
        + right. eauto.
        + rewrite E. left. exact G.
      - right. apply add_metadata_fresh, G. }
    assert (One : taken combine_value (metadata_value m x) (hm_get str_eqb x ((k, v) :: l)) (metadata_value (fst (add_metadata m k v)) x)).
    { cbn [hm_get]. destruct (str_eqb k x) eqn:M.
      - apply str_eqb_eq in M. subst x. exact T.
      - left. apply Fr. apply str_eqb_neq, M. }
    destruct (add_metadata m k v) as [m' r]. cbn [fst] in *. destruct r as [o|err|]; try exact One.
    assert (IH' : forall x, taken combine_value (metadata_value m' x) (hm_get str_eqb x l) (metadata_value (fst (merge_metadata m' l)) x)).
    { apply IH; auto. intros y e N G. destruct (str_eqb k y) eqn:M.
      - apply str_eqb_eq in M. subst y. congruence.
      - rewrite Fr in G by (apply str_eqb_neq, M). apply (W y); [|exact G]. cbn [hm_get]. rewrite M. exact N. }
    specialize (IH' x). revert One. cbn [hm_get]. destruct (str_eqb k x) eqn:M; intros One.
    - apply str_eqb_eq in M. subst x. rewrite Hk in IH'. destruct IH' as [E|X].
      + rewrite E. exact One.
      + destruct (metadata_value m' k) as [q|] eqn:Q; [destruct X|]. rewrite X. exact One.
    - rewrite Fr in IH' by (apply str_eqb_neq, M). exact IH'.
  Qed.
  Lemma merge_taken m o :
    model_ok m -> model_ok o ->
    m_version (fst (merge m o)) = m_version m
    /\ (forall id, taken partly_merged (model_shape m id) (model_shape o id) (model_shape (fst (merge m o)) id))
    /\ (forall k, taken combine_value (metadata_value m k) (metadata_value o k) (metadata_value (fst (merge m o)) k)).
  Proof.
    intros Wm Wo. assert (Eo := model_entries_ok o Wo).
    unfold merge. destruct (negb _); [split; [reflexivity|split; left; reflexivity]|].
    assert (TM : forall k, taken combine_value (metadata_value m k) (metadata_value o k) (metadata_value (fst (merge_metadata m (m_metadata o))) k)).
    { apply merge_metadata_taken; [apply Wo|apply Wo|]. intros k e _ G. exact (metadata_ok m k e Wm G). }
    destruct (merge_metadata_shapes (m_metadata o) m) as [S1 V1].
    destruct (merge_metadata m (m_metadata o)) as [m1 r1]. cbn [fst] in *.
    assert (Sh : forall x, model_shape m1 x = model_shape m x) by (intros x; unfold model_shape; rewrite S1; reflexivity).
    assert (Base : m_version m1 = m_version m /\ (forall id, taken partly_merged (model_shape m id) (model_shape o id) (model_shape m1 id))
                   /\ (forall k, taken combine_value (metadata_value m k) (metadata_value o k) (metadata_value m1 k))).
    { split; [exact V1|]. split; [|exact TM]. intros id. left. apply Sh. }
    destruct r1 as [u|err|]; try exact Base.
    destruct (merge_shapes_metadata (m_shapes o) m1) as [T1 T2]. split; [congruence|]. split.
    - intros id. rewrite <- (Sh id). apply merge_shapes_taken; [exact Eo|]. intros k e _ G. rewrite Sh in G.
      split; [exact (model_shape_ok _ _ _ Wm G)|]. apply model_shape_Some_In in G as [_ E]; [|apply Wm].
      apply sid_eqb_same, sid_key_eqb_eq, E.
    - intros k. unfold metadata_value at 3. rewrite T1. apply TM.
  Qed.
End WithHasher.
