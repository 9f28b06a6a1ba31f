(** add_shape, add_metadata, merge: invariants and effects. *)
From Verif.Model Require Import SemModel.
From Verif.Spec Require Import ModelSpec.
From Verif.Proofs Require Import HashMapFacts ValueFacts ShapeFacts.

Section WithHasher.
  Context `{Hasher}.

  Lemma model_shape_cong m a b : sid_key_eqb a b = true -> model_shape m a = model_shape m b.
  Proof. apply hm_get_cong. auto with equivb. Qed.
  Lemma model_shape_In m k s : distinct sid_key_eqb (m_shapes m) -> In (k, s) (m_shapes m) -> model_shape m k = Some s.
  Proof. intros D I. apply hm_get_In; auto with equivb. Qed.

  (** ** One normal form for add_shape *)
  Inductive add_shape_case (m : model) (s : shape) : model -> result unit -> Prop :=
  | ac_member : sid_member (ts_id s) <> None -> ts_body s <> KUnresolved ->
      add_shape_case m s m (Err (EShapeIDExpected (ts_id s)))
  | ac_fresh : (sid_member (ts_id s) = None \/ ts_body s = KUnresolved) -> model_shape m (ts_id s) = None ->
      add_shape_case m s (set_shapes m (hm_insert sid_key_eqb (ts_id s) s (m_shapes m))) (Ok tt)
  | ac_conflict e : (sid_member (ts_id s) = None \/ ts_body s = KUnresolved) -> model_shape m (ts_id s) = Some e ->
      ts_body e <> KUnresolved -> ts_body s <> KUnresolved -> equal_without_traits e s = Ok false ->
      add_shape_case m s m (Err (EMergeShapeConflict (ts_id e)))
  | ac_panic e : (sid_member (ts_id s) = None \/ ts_body s = KUnresolved) -> model_shape m (ts_id s) = Some e ->
      ts_body e <> KUnresolved -> ts_body s <> KUnresolved -> equal_without_traits e s = Panic ->
      add_shape_case m s m Panic
  | ac_update e ts r : (sid_member (ts_id s) = None \/ ts_body s = KUnresolved) -> model_shape m (ts_id s) = Some e ->
      (ts_body e = KUnresolved \/ ts_body s = KUnresolved \/ equal_without_traits e s = Ok true) ->
      append_traits (ts_traits e) (ts_traits s) = (ts, r) ->
      add_shape_case m s
        (update_shape m (ts_id s) (Shape (ts_id e) ts (merged_body (ts_body e) (ts_body s)))) r.

  Lemma add_shape_cases m s : add_shape_case m s (fst (add_shape m s)) (snd (add_shape m s)).
  Proof.
    unfold add_shape. destruct (sid_is_member (ts_id s)) eqn:M; cbn [andb].
    - apply sid_is_member_spec in M. destruct (is_unresolved (ts_body s)) eqn:U; cbn [negb].
      2:{ apply ac_member; [assumption|]. intros E; rewrite E in U; discriminate. }
      assert (Us : ts_body s = KUnresolved) by (destruct (ts_body s); try discriminate; reflexivity).
      destruct (model_shape m (ts_id s)) as [e|] eqn:E; [|apply ac_fresh; auto].
      destruct (is_unresolved (ts_body e)) eqn:Ue; unfold copy_traits;
        destruct (append_traits (ts_traits e) (ts_traits s)) as [ts r] eqn:A; cbn [fst snd];
        replace (Shape (ts_id e) ts (ts_body e)) with (Shape (ts_id e) ts (merged_body (ts_body e) (ts_body s)));
        try (eapply ac_update; eauto); destruct (ts_body e); try discriminate; rewrite ?Us; reflexivity.
    - apply sid_is_member_false in M.
      destruct (model_shape m (ts_id s)) as [e|] eqn:E; [|apply ac_fresh; auto].
      destruct (is_unresolved (ts_body e)) eqn:Ue; destruct (is_unresolved (ts_body s)) eqn:Us.
      + assert (Ebe : ts_body e = KUnresolved) by (destruct (ts_body e); try discriminate; reflexivity).
        assert (Ebs : ts_body s = KUnresolved) by (destruct (ts_body s); try discriminate; reflexivity).
        unfold copy_traits. destruct (append_traits (ts_traits e) (ts_traits s)) as [ts r] eqn:A; cbn [fst snd].
        replace (Shape (ts_id e) ts (ts_body e)) with (Shape (ts_id e) ts (merged_body (ts_body e) (ts_body s)))
          by (rewrite Ebe, Ebs; reflexivity).
        eapply ac_update; eauto.
      + assert (Ebe : ts_body e = KUnresolved) by (destruct (ts_body e); try discriminate; reflexivity).
        unfold copy_traits, set_body. cbn [ts_traits ts_id ts_body].
        destruct (append_traits (ts_traits e) (ts_traits s)) as [ts r] eqn:A; cbn [fst snd].
        replace (Shape (ts_id e) ts (ts_body s)) with (Shape (ts_id e) ts (merged_body (ts_body e) (ts_body s)))
          by (rewrite Ebe; reflexivity).
        eapply ac_update; eauto.
      + assert (Ebs : ts_body s = KUnresolved) by (destruct (ts_body s); try discriminate; reflexivity).
        unfold copy_traits. destruct (append_traits (ts_traits e) (ts_traits s)) as [ts r] eqn:A; cbn [fst snd].
        replace (Shape (ts_id e) ts (ts_body e)) with (Shape (ts_id e) ts (merged_body (ts_body e) (ts_body s)))
          by (destruct (ts_body e); try discriminate; reflexivity).
        eapply ac_update; eauto.
      + assert (Nbe : ts_body e <> KUnresolved) by (intros C; rewrite C in Ue; discriminate).
        assert (Nbs : ts_body s <> KUnresolved) by (intros C; rewrite C in Us; discriminate).
        destruct (equal_without_traits e s) as [[|]| err|] eqn:EQ; cbn [fst snd].
        * unfold copy_traits. destruct (append_traits (ts_traits e) (ts_traits s)) as [ts r] eqn:A; cbn [fst snd].
          replace (Shape (ts_id e) ts (ts_body e)) with (Shape (ts_id e) ts (merged_body (ts_body e) (ts_body s)))
            by (destruct (ts_body e); try discriminate; reflexivity).
          eapply ac_update; eauto.
        * eapply ac_conflict; eauto.
        * exfalso. eapply equal_without_traits_no_err; eauto.
        * eapply ac_panic; eauto.
  Qed.

  Lemma model_shape_update m id s x :
    model_shape (update_shape m id s) x =
    if sid_key_eqb id x then option_map (fun _ => s) (model_shape m x) else model_shape m x.
  Proof. unfold model_shape, update_shape. cbn. apply hm_get_update. auto with equivb. Qed.
  Lemma model_shape_insert m id s x :
    model_shape (set_shapes m (hm_insert sid_key_eqb id s (m_shapes m))) x =
    if sid_key_eqb id x then Some s else model_shape m x.
  Proof. unfold model_shape. cbn. apply hm_get_insert. auto with equivb. Qed.

  (** ** Invariant *)
  Lemma merged_body_unresolved a b : merged_body a b = KUnresolved -> a = KUnresolved /\ b = KUnresolved.
  Proof. destruct a; cbn; try discriminate. auto. Qed.
  Lemma model_shape_Some_In m k e : keys_ok m -> model_shape m k = Some e -> In (ts_id e, e) (m_shapes m) /\ sid_key_eqb (ts_id e) k = true.
  Proof.
    intros (K1 & _) G. apply hm_get_Some_In in G as (k' & I & E). destruct (K1 _ _ I) as [-> _]. auto.
  Qed.

  Lemma add_shape_keys_ok m s : keys_ok m -> keys_ok (fst (add_shape m s)).
  Proof.
    intros K. destruct (add_shape_cases m s) as [M U|W F|e W F N1 N2 E|e W F N1 N2 E|e ts r W F C A]; auto.
    - destruct K as (K1 & K2 & K3). split; [|split; [apply distinct_insert; auto with equivb|assumption]].
      cbn. intros k s' I. rewrite hm_insert_fresh in I by assumption.
      apply in_app_iff in I as [I|[I|[]]]; [auto|]. injection I as <- <-. split; [reflexivity|]. intros; tauto.
    - assert (K' := K). destruct K as (K1 & K2 & K3). split; [|split; [apply distinct_update; auto with equivb|assumption]].
      cbn. intros k s' I. apply hm_update_In in I as [I|(v & I & -> & E)]; [auto|]. cbn.
      destruct (K1 _ _ I) as [-> Hm].
      assert (v = e). { apply (model_shape_In m) in I; auto. rewrite (model_shape_cong _ _ _ E) in I. congruence. } subst v.
      split; [reflexivity|]. intros M. specialize (Hm M). rewrite Hm. cbn.
      destruct W as [W|W]; [|assumption]. exfalso.
      apply sid_key_eqb_eq, sid_eqb_same, same_id_is_member in E. unfold sid_is_member in E. rewrite W in E.
      destruct (sid_member (ts_id e)); congruence.
  Qed.
  Lemma add_metadata_keys_ok m k v : keys_ok m -> keys_ok (fst (add_metadata m k v)).
  Proof.
    intros (K1 & K2 & K3).
    assert (G : forall x, keys_ok (set_metadata m (hm_insert str_eqb k x (m_metadata m)))).
    { intros x. split; [exact K1|]. split; [exact K2|]. apply distinct_insert; auto with equivb. }
    unfold add_metadata. destruct (metadata_value m k) as [o|]; [|apply G].
    assert (K : keys_ok m) by (repeat split; auto; eapply K1; eauto).
    destruct o, v; try (cbn [fst]; destruct (value_eqb _ _); exact K). apply G.
  Qed.
  Lemma merge_metadata_keys_ok l : forall m, keys_ok m -> keys_ok (fst (merge_metadata m l)).
  Proof.
    induction l as [|[k v] l IH]; intros m K; cbn; [assumption|].
    pose proof (add_metadata_keys_ok m k v K). destruct (add_metadata m k v) as [m' [| |]]; cbn in *; auto.
  Qed.
  Lemma merge_shapes_keys_ok l : forall m, keys_ok m -> keys_ok (fst (merge_shapes m l)).
  Proof.
    induction l as [|[k s] l IH]; intros m K; cbn; [assumption|].
    pose proof (add_shape_keys_ok m s K). destruct (add_shape m s) as [m' [| |]]; cbn in *; auto.
  Qed.
  Lemma merge_keys_ok m o : keys_ok m -> keys_ok (fst (merge m o)).
  Proof.
    intros K. unfold merge. destruct (negb _); [assumption|].
    pose proof (merge_metadata_keys_ok (m_metadata o) m K) as K1.
    destruct (merge_metadata m (m_metadata o)) as [m' [| |]]; cbn in *; auto. apply merge_shapes_keys_ok; assumption.
  Qed.
  Lemma run_op_keys_ok m o : keys_ok m -> keys_ok (run_op m o).
  Proof.
    intros K. destruct o; cbn.
    - apply add_shape_keys_ok; assumption.
    - apply merge_keys_ok; assumption.
    - apply add_metadata_keys_ok; assumption.
    - destruct K as (K1 & K2 & K3). split; [|split; [apply distinct_remove; assumption|assumption]].
      intros k s I. apply hm_remove_In in I. auto.
    - destruct K as (K1 & K2 & K3). split; [assumption|split; [assumption|apply distinct_remove; assumption]].
  Qed.
  Lemma run_ops_keys_ok ops : forall m, keys_ok m -> keys_ok (run_ops ops m).
  Proof.
    unfold run_ops. induction ops as [|o ops IH]; cbn; auto. intros m K. apply IH, run_op_keys_ok, K.
  Qed.
  Lemma model_new_keys_ok v : keys_ok (model_new v).
  Proof. split; [cbn; tauto|]. split; exact I. Qed.

  (** ** add_shape: effect *)
  Lemma add_shape_frame m s x :
    sid_key_eqb (ts_id s) x = false -> model_shape (fst (add_shape m s)) x = model_shape m x.
  Proof.
    intros N. destruct (add_shape_cases m s); auto.
    - rewrite model_shape_insert, N. reflexivity.
    - rewrite model_shape_update, N. reflexivity.
  Qed.
  Lemma add_shape_version m s : m_version (fst (add_shape m s)) = m_version m.
  Proof. destruct (add_shape_cases m s); reflexivity. Qed.
  Lemma add_shape_metadata m s : m_metadata (fst (add_shape m s)) = m_metadata m.
  Proof. destruct (add_shape_cases m s); reflexivity. Qed.

  Lemma add_shape_fresh m s :
    model_shape m (ts_id s) = None -> (sid_member (ts_id s) = None \/ ts_body s = KUnresolved) ->
    snd (add_shape m s) = Ok tt /\ model_shape (fst (add_shape m s)) (ts_id s) = Some s.
  Proof.
    intros F W. destruct (add_shape_cases m s) as [M U|W' F'|e W' F' N1 N2 E|e W' F' N1 N2 E|e ts r W' F' C A]; try congruence.
    - destruct W; congruence.
    - split; [reflexivity|]. rewrite model_shape_insert, (eqv_refl _ sid_key_equiv). reflexivity.
  Qed.

  (** What can be said about an existing entry, whatever the result. *)
  Lemma add_shape_existing m s e :
    model_shape m (ts_id s) = Some e ->
    exists e', model_shape (fst (add_shape m s)) (ts_id s) = Some e' /\ ts_id e' = ts_id e
               /\ (ts_body e <> KUnresolved -> ts_body e' = ts_body e)
               /\ (ts_body e' = ts_body e \/ ts_body e' = ts_body s).
  Proof.
    intros F. destruct (add_shape_cases m s) as [M U|W' F'|e0 W' F' N1 N2 E|e0 W' F' N1 N2 E|e0 ts r W' F' C A];
      try (exists e; auto; fail); [congruence|].
    assert (e0 = e) by congruence. subst e0. eexists. split.
    - rewrite model_shape_update, (eqv_refl _ sid_key_equiv), F. reflexivity.
    - cbn. split; [reflexivity|]. destruct (ts_body e); cbn; split; auto; congruence.
  Qed.

  Lemma add_shape_ok m s e :
    shape_ok s -> shape_ok e -> keys_ok m -> model_shape m (ts_id s) = Some e -> snd (add_shape m s) = Ok tt ->
    bodies_compatible (ts_body e) (ts_body s)
    /\ exists e', model_shape (fst (add_shape m s)) (ts_id s) = Some e' /\ merged_shape e s e'.
  Proof.
    intros Ws We K F R. assert (Sid : same_id (ts_id e) (ts_id s)).
    { apply (model_shape_Some_In m) in F as [_ E]; auto. apply sid_eqb_same, sid_key_eqb_eq, E. }
    destruct (add_shape_cases m s) as [M U|W' F'|e0 W' F' N1 N2 E|e0 W' F' N1 N2 E|e0 ts r W' F' C A]; try congruence; try discriminate.
    assert (e0 = e) by congruence. subst e0. subst r. split.
    - destruct C as [C|[C|C]]; unfold bodies_compatible; auto. right; right.
      apply equal_without_traits_true; auto; [apply We|apply Ws].
    - eexists. split; [rewrite model_shape_update, (eqv_refl _ sid_key_equiv), F; reflexivity|].
      split; [reflexivity|]. split; [reflexivity|]. cbn. intros t.
      destruct Ws as [[D Wt] _], We as [[De Wte] _]. pose proof (append_ok_lookup _ _ _ _ D A t) as L.
      destruct (trait_named t (ts_traits e)) as [a|] eqn:Ga, (trait_named t (ts_traits s)) as [b|] eqn:Gb; auto.
      destruct L as (c & i & L & Mg). exists c. split; [assumption|]. apply (merge_traits_spec i) in Mg; auto.
      + unfold trait_named in Ga. apply hm_get_Some_In in Ga as (k & I & _). rewrite Forall_forall in Wte. apply (Wte _ I).
      + unfold trait_named in Gb. apply hm_get_Some_In in Gb as (k & I & _). rewrite Forall_forall in Wt. apply (Wt _ I).
  Qed.

  Lemma add_shape_ok_iff m s e :
    shape_ok s -> shape_ok e -> keys_ok m -> model_shape m (ts_id s) = Some e ->
    (sid_member (ts_id s) = None \/ ts_body s = KUnresolved) ->
    (snd (add_shape m s) = Ok tt <-> shapes_compatible e s).
  Proof.
    intros Ws We K F W. assert (Sid : same_id (ts_id e) (ts_id s)).
    { apply (model_shape_Some_In m) in F as [_ E]; auto. apply sid_eqb_same, sid_key_eqb_eq, E. }
    assert (Sp := equal_without_traits_true e s (proj2 We) (proj2 Ws) Sid).
    assert (Ap := append_ok_iff (ts_traits s) (ts_traits e) (proj1 Ws)).
    assert (Tv : forall i v, In (i, v) (ts_traits e) -> tv_ok v).
    { destruct We as [[_ Wt] _]. rewrite Forall_forall in Wt. intros i v I. apply (Wt _ I). }
    specialize (Ap Tv). unfold shapes_compatible, bodies_compatible.
    destruct (add_shape_cases m s) as [M U|W' F'|e0 W' F' N1 N2 E|e0 W' F' N1 N2 E|e0 ts r W' F' C A];
      try (destruct W; congruence); try congruence; try (assert (e0 = e) by congruence; subst e0).
    - split; [discriminate|]. intros [[C|[C|C]] _]; try congruence. apply Sp in C. congruence.
    - split; [discriminate|]. intros [[C|[C|C]] _]; try congruence. apply Sp in C. congruence.
    - rewrite <- Ap, A. split.
      + intros ->. split; [|eauto]. destruct C as [C|[C|C]]; auto. right; right. apply Sp, C.
      + intros [_ [ts' E]]. congruence.
  Qed.

  Lemma add_shape_panic m s :
    snd (add_shape m s) = Panic ->
    fst (add_shape m s) = m /\
    exists e, model_shape m (ts_id s) = Some e /\ member_mismatch (ts_body e) (ts_body s).
  Proof.
    destruct (add_shape_cases m s) as [M U|W' F'|e0 W' F' N1 N2 E|e0 W' F' N1 N2 E|e0 ts r W' F' C A]; try discriminate.
    - intros _. split; [reflexivity|]. exists e0. split; [assumption|]. apply equal_without_traits_panic, E.
    - intros ->. exfalso. apply (append_not_panic (ts_traits s) (ts_traits e0)). rewrite A. reflexivity.
  Qed.

  (** ** add_metadata: effect *)
  Lemma metadata_insert m k v x :
    metadata_value (set_metadata m (hm_insert str_eqb k v (m_metadata m))) x =
    if str_eqb k x then Some v else metadata_value m x.
  Proof. unfold metadata_value. cbn. apply hm_get_insert. auto with equivb. Qed.
  Lemma add_metadata_frame m k v x : k <> x -> metadata_value (fst (add_metadata m k v)) x = metadata_value m x.
  Proof.
    intros N. apply str_eqb_neq in N. unfold add_metadata. destruct (metadata_value m k) as [o|].
    - destruct o, v; cbn [fst]; try (destruct (value_eqb _ _); reflexivity). rewrite metadata_insert, N. reflexivity.
    - cbn [fst]. rewrite metadata_insert, N. reflexivity.
  Qed.
  Lemma add_metadata_shapes m k v : m_shapes (fst (add_metadata m k v)) = m_shapes m /\ m_version (fst (add_metadata m k v)) = m_version m.
  Proof.
    unfold add_metadata. destruct (metadata_value m k) as [o|]; [|split; reflexivity].
    destruct o, v; cbn [fst]; try (destruct (value_eqb _ _)); split; reflexivity.
  Qed.
  Lemma add_metadata_fresh m k v :
    metadata_value m k = None -> snd (add_metadata m k v) = Ok None /\ metadata_value (fst (add_metadata m k v)) k = Some v.
  Proof. intros E. unfold add_metadata. rewrite E. cbn [fst snd]. rewrite metadata_insert, str_eqb_refl. auto. Qed.
  Lemma add_metadata_existing m k v o :
    value_ok o -> value_ok v -> metadata_value m k = Some o ->
    (exists c r, combine_value o v c /\ snd (add_metadata m k v) = Ok r /\ metadata_value (fst (add_metadata m k v)) k = Some c)
    \/ ((forall c, ~ combine_value o v c) /\ add_metadata m k v = (m, Err (EMergeMetadataConflict k))).
  Proof.
    intros Wo Wv E.
    assert (D : (exists x y, o = VArray x /\ v = VArray y) \/ ~ (is_array_value o /\ is_array_value v)).
    { destruct o, v; eauto 6; right; intros [[? ?] [? ?]]; congruence. }
    destruct D as [(x & y & -> & ->)|N].
    - left. exists (VArray (x ++ y)), (Some (VArray x)). split; [constructor|].
      unfold add_metadata. rewrite E. cbn [fst snd]. rewrite metadata_insert, str_eqb_refl. auto.
    - assert (A : add_metadata m k v = if value_eqb o v then (m, Ok None) else (m, Err (EMergeMetadataConflict k))).
      { unfold add_metadata. rewrite E. destruct o, v; try reflexivity. exfalso; apply N; unfold is_array_value; eauto. }
      rewrite A. destruct (value_eqb o v) eqn:Q.
      + left. exists o, None. apply value_eqb_spec in Q; auto. split; [apply cv_equal; assumption|auto].
      + right. split; [|reflexivity]. intros c C. inversion C; subst; [apply N; unfold is_array_value; eauto|].
        match goal with h : same_value _ _ |- _ => apply value_eqb_spec in h end; auto. congruence.
  Qed.

  (** ** merge *)
  Lemma merge_metadata_shapes l : forall m, m_shapes (fst (merge_metadata m l)) = m_shapes m
                                            /\ m_version (fst (merge_metadata m l)) = m_version m.
  Proof.
    induction l as [|[k v] l IH]; intros m; cbn; [auto|].
    pose proof (add_metadata_shapes m k v) as [S V]. destruct (add_metadata m k v) as [m' [| |]]; cbn in *; auto.
    destruct (IH m') as [S' V']. split; congruence.
  Qed.
  Lemma merge_shapes_metadata l : forall m, m_metadata (fst (merge_shapes m l)) = m_metadata m
                                            /\ m_version (fst (merge_shapes m l)) = m_version m.
  Proof.
    induction l as [|[k s] l IH]; intros m; cbn; [auto|].
    pose proof (add_shape_metadata m s) as S. pose proof (add_shape_version m s) as V.
    destruct (add_shape m s) as [m' [| |]]; cbn in *; auto.
    destruct (IH m') as [S' V']. split; congruence.
  Qed.

  (** Metadata part: success and contents. *)
  Definition merged_metadata (old new result : str -> option value) : Prop :=
    forall k, match old k, new k with
              | Some a, Some b => exists c, result k = Some c /\ combine_value a b c
              | Some a, None => result k = Some a
              | None, x => result k = x
              end.
  Lemma merge_metadata_spec l : forall m,
    distinct str_eqb l -> Forall (fun e => value_ok (snd e)) l -> Forall (fun e => value_ok (snd e)) (m_metadata m) ->
    (snd (merge_metadata m l) = Ok tt <->
       (forall k a b, metadata_value m k = Some a -> hm_get str_eqb k l = Some b -> exists c, combine_value a b c))
    /\ (snd (merge_metadata m l) = Ok tt ->
         merged_metadata (metadata_value m) (fun k => hm_get str_eqb k l) (metadata_value (fst (merge_metadata m l))))
    /\ snd (merge_metadata m l) <> Panic.
  Proof.
    induction l as [|[k v] l IH]; intros m D Wl Wm.
    - cbn. repeat split; try discriminate. intros _ k. destruct (metadata_value m k); reflexivity.
    - destruct D as [D1 D2]. inversion Wl as [|? ? Wv Wl']; subst. cbn in Wv. cbn [merge_metadata].
      assert (Hk : hm_get str_eqb k l = None) by (apply hm_get_None_In; eauto).
      destruct (metadata_value m k) as [o|] eqn:Eo.
      + assert (Wo : value_ok o). { unfold metadata_value in Eo. apply hm_get_Some_In in Eo as (k' & I & _). rewrite Forall_forall in Wm. apply (Wm _ I). }
        destruct (add_metadata_existing m k v o Wo Wv Eo) as [(c & r & C & R & G)|[N A]].
        * assert (Fr := fun x => add_metadata_frame m k v x).
          assert (Wm' : Forall (fun e => value_ok (snd e)) (m_metadata (fst (add_metadata m k v)))).
          { unfold add_metadata. rewrite Eo. destruct o, v; cbn [fst]; try (destruct (value_eqb _ _); assumption).
            apply Forall_forall. intros [k0 v0] I. cbn in *. apply hm_insert_In in I as [I|(-> & _)]; auto with equivb.
            - rewrite Forall_forall in Wm. apply (Wm _ I).
            - inversion Wo; inversion Wv; subst. constructor. apply Forall_app; auto. }
          destruct (add_metadata m k v) as [m' r'] eqn:A. cbn in R. subst r'. cbn [fst snd] in *.
          destruct (IH m' D2 Wl' Wm') as (I1 & I2 & I3). split; [|split; [|assumption]].
          -- rewrite I1. split; intros Q k0 a b E1 E2.
             ++ cbn in E2. destruct (str_eqb k k0) eqn:Ek.
                ** apply str_eqb_eq in Ek. subst k0. assert (a = o) by congruence. injection E2 as <-. subst a. eauto.
                ** apply str_eqb_neq in Ek. rewrite <- (Fr k0 Ek) in E1. eauto.
             ++ destruct (str_eqb k k0) eqn:Ek; [apply str_eqb_eq in Ek; subst; congruence|].
                assert (Ek' := Ek). apply str_eqb_neq in Ek. rewrite (Fr k0 Ek) in E1. apply (Q k0 a b E1). cbn. rewrite Ek'. assumption.
          -- intros Q. specialize (I2 Q). intros k0. specialize (I2 k0). cbn [hm_get]. cbn beta in I2.
             destruct (str_eqb k k0) eqn:Ek.
             ++ apply str_eqb_eq in Ek. subst k0. rewrite G, Hk in I2. rewrite Eo. eauto.
             ++ apply str_eqb_neq in Ek. rewrite (Fr k0 Ek) in I2. exact I2.
        * rewrite A. cbn. split; [|split; discriminate]. split; [discriminate|]. intros Q. exfalso.
          destruct (Q k o v Eo) as [c C]; [rewrite str_eqb_refl; reflexivity|]. exact (N c C).
      + destruct (add_metadata_fresh m k v Eo) as [R G].
        assert (Fr := fun x => add_metadata_frame m k v x).
        assert (Wm' : Forall (fun e => value_ok (snd e)) (m_metadata (fst (add_metadata m k v)))).
        { unfold add_metadata. rewrite Eo. cbn [fst]. apply Forall_forall. intros [k0 v0] I. cbn in *.
          apply hm_insert_In in I as [I|(-> & _)]; auto with equivb. rewrite Forall_forall in Wm. apply (Wm _ I). }
        destruct (add_metadata m k v) as [m' r'] eqn:A. cbn in R. subst r'. cbn [fst snd] in *.
        destruct (IH m' D2 Wl' Wm') as (I1 & I2 & I3). split; [|split; [|assumption]].
        -- rewrite I1. split; intros Q k0 a b E1 E2.
           ++ cbn in E2. destruct (str_eqb k k0) eqn:Ek.
              ** apply str_eqb_eq in Ek. subst k0. congruence.
              ** apply str_eqb_neq in Ek. rewrite <- (Fr k0 Ek) in E1. eauto.
           ++ destruct (str_eqb k k0) eqn:Ek; [apply str_eqb_eq in Ek; subst; congruence|].
              assert (Ek' := Ek). apply str_eqb_neq in Ek. rewrite (Fr k0 Ek) in E1. apply (Q k0 a b E1). cbn. rewrite Ek'. assumption.
        -- intros Q. specialize (I2 Q). intros k0. specialize (I2 k0). cbn [hm_get]. cbn beta in I2.
           destruct (str_eqb k k0) eqn:Ek.
           ++ apply str_eqb_eq in Ek. subst k0. rewrite G, Hk in I2. rewrite Eo. assumption.
           ++ apply str_eqb_neq in Ek. rewrite (Fr k0 Ek) in I2. exact I2.
  Qed.

  (** Shapes part. [entries_ok l]: what the shapes of a well-formed model look like. *)
  Definition entries_ok (l : list (shape_id * shape)) : Prop :=
    distinct sid_key_eqb l
    /\ Forall (fun e => fst e = ts_id (snd e) /\ shape_ok (snd e)
                        /\ (sid_member (fst e) = None \/ ts_body (snd e) = KUnresolved)) l.
  Definition merged_shapes (old new result : shape_id -> option shape) : Prop :=
    forall k, match old k, new k with
              | Some a, Some b => exists c, result k = Some c /\ merged_shape a b c
              | Some a, None => result k = Some a
              | None, x => result k = x
              end.
  Lemma merge_shapes_spec l : forall m,
    keys_ok m -> Forall (fun e => shape_ok (snd e)) (m_shapes m) -> entries_ok l ->
    (snd (merge_shapes m l) = Ok tt <->
       (forall k a b, model_shape m k = Some a -> hm_get sid_key_eqb k l = Some b -> shapes_compatible a b))
    /\ (snd (merge_shapes m l) = Ok tt ->
         merged_shapes (model_shape m) (fun k => hm_get sid_key_eqb k l) (model_shape (fst (merge_shapes m l)))).
  Proof.
    assert (WS : forall m k a, Forall (fun e => shape_ok (snd e)) (m_shapes m) -> model_shape m k = Some a -> shape_ok a).
    { intros m k a W G. unfold model_shape in G. apply hm_get_Some_In in G as (k' & I & _). rewrite Forall_forall in W. apply (W _ I). }
    induction l as [|[k s] l IH]; intros m K Wm [D We].
    - cbn. repeat split; try discriminate. intros _ k. destruct (model_shape m k); reflexivity.
    - destruct D as [D1 D2]. inversion We as [|? ? (Ek & Ws & Wr) We']; subst. cbn in Ek, Ws, Wr. subst k. cbn [merge_shapes].
      assert (Hk : hm_get sid_key_eqb (ts_id s) l = None) by (apply hm_get_None_In; eauto).
      assert (Fr := fun x => add_shape_frame m s x).
      assert (K' := add_shape_keys_ok m s K).
      assert (Wm' : snd (add_shape m s) = Ok tt -> Forall (fun e => shape_ok (snd e)) (m_shapes (fst (add_shape m s)))).
      { intros R. destruct (add_shape_cases m s) as [M U|W' F'|e W' F' N1 N2 E|e W' F' N1 N2 E|e ts r W' F' C A]; try discriminate.
        - apply Forall_forall. intros [k0 v0] I. cbn in *. apply hm_insert_In in I as [I|(-> & _)]; auto with equivb.
          rewrite Forall_forall in Wm. apply (Wm _ I).
        - subst r. assert (We0 := WS _ _ _ Wm F'). apply Forall_forall. intros [k0 v0] I. cbn in *.
          apply hm_update_In in I as [I|(v1 & I & -> & _)]; [rewrite Forall_forall in Wm; apply (Wm _ I)|].
          split; cbn.
          + destruct We0 as [[De Wte] _], Ws as [[Ds Wts] _]. split.
            * pose proof (append_distinct (ts_traits s) _ De) as Da. rewrite A in Da. exact Da.
            * clear - A Wte Wts. revert A Wte Wts. generalize (ts_traits e). generalize (ts_traits s).
              intros l0. revert ts. induction l0 as [|[i v] l0 IHl]; intros ts l1 A W1 W2; cbn in A; [injection A as <-; assumption|].
              inversion W2 as [|? ? [Mi Wv] W2']; subst. cbn in *.
              destruct (apply_with_value l1 i v) as [ts1 [u1| |]] eqn:Ap; try discriminate.
              eapply IHl; eauto. clear IHl A. unfold apply_with_value in Ap.
              destruct (sid_is_member i) eqn:Mb; [discriminate|].
              assert (Q : forall x, tv_ok x -> Forall (fun t => sid_member (fst t) = None /\ match snd t with Some v0 => value_ok v0 | None => True end) (hm_insert sid_key_eqb i x l1)).
              { intros x Wx. apply Forall_forall. intros [i' v'] I. apply hm_insert_In in I as [I|(-> & _ & [->|(v2 & I)])]; auto with equivb.
                - rewrite Forall_forall in W1. apply (W1 _ I).
                - rewrite Forall_forall in W1. destruct (W1 _ I) as [Z _]. cbn in *. split; assumption. }
              destruct (trait_named i l1) as [o|] eqn:G; [|injection Ap as <- _; apply Q; exact Wv].
              destruct (merge_traits i o v) as [nv| |] eqn:Mg; try discriminate. injection Ap as <- _. apply Q.
              assert (Wo : tv_ok o). { unfold trait_named in G. apply hm_get_Some_In in G as (k1 & I & _). rewrite Forall_forall in W1. apply (W1 _ I). }
              apply (merge_traits_spec i) in Mg; auto. inversion Mg as [|? ? ? CV]; subst; cbn in *; [exact I|].
              inversion CV; subst; auto. inversion Wo; inversion Wv; subst. constructor. apply Forall_app; auto.
          + destruct (ts_body e) eqn:Eb; cbn; try (destruct We0 as [_ B]; rewrite Eb in B; exact B). apply Ws. }
      destruct (model_shape m (ts_id s)) as [e|] eqn:Ee.
      + assert (We0 := WS _ _ _ Wm Ee).
        assert (Iff := add_shape_ok_iff m s e Ws We0 K Ee Wr).
        assert (Okk := add_shape_ok m s e Ws We0 K Ee).
        destruct (add_shape m s) as [m' r] eqn:A. cbn [fst snd] in *.
        destruct r as [[]|err|].
        * destruct (IH m' K' (Wm' eq_refl) (conj D2 We')) as (I1 & I2).
          destruct (Okk eq_refl) as (BC & e' & Ge' & Mg). clear Okk.
          assert (SC : shapes_compatible e s) by (apply Iff; reflexivity).
          split.
          -- rewrite I1. split; intros Q k0 a b E1 E2.
             ++ cbn in E2. destruct (sid_key_eqb (ts_id s) k0) eqn:Ek.
                ** rewrite <- (model_shape_cong _ _ _ Ek) in E1. injection E2 as <-. congruence.
                ** rewrite <- (Fr k0 Ek) in E1. eauto.
             ++ destruct (sid_key_eqb (ts_id s) k0) eqn:Ek.
                ** rewrite <- (hm_get_cong _ sid_key_equiv _ _ _ Ek) in E2. congruence.
                ** rewrite (Fr k0 Ek) in E1. apply (Q k0 a b E1). cbn. rewrite Ek. assumption.
          -- intros Q. specialize (I2 Q). intros k0. specialize (I2 k0). cbn beta in *. cbn [hm_get].
             destruct (sid_key_eqb (ts_id s) k0) eqn:Ek.
             ++ rewrite <- !(model_shape_cong _ _ _ Ek) in I2. rewrite <- !(model_shape_cong _ _ _ Ek).
                rewrite Ge', <- (hm_get_cong _ sid_key_equiv _ _ _ Ek), Hk in I2. rewrite Ee. eauto.
             ++ rewrite (Fr k0 Ek) in I2. exact I2.
        * cbn [snd]. split; [|discriminate]. split; [discriminate|]. intros Q. exfalso.
          assert (C : @Err unit err = Ok tt); [|discriminate C]. apply Iff. apply (Q (ts_id s)); [assumption|].
          cbn. rewrite (eqv_refl _ sid_key_equiv). reflexivity.
        * cbn [snd]. split; [|discriminate]. split; [discriminate|]. intros Q. exfalso.
          assert (C : @Panic unit = Ok tt); [|discriminate C]. apply Iff. apply (Q (ts_id s)); [assumption|].
          cbn. rewrite (eqv_refl _ sid_key_equiv). reflexivity.
      + destruct (add_shape_fresh m s Ee Wr) as [R G].
        destruct (add_shape m s) as [m' r] eqn:A. cbn [fst snd] in *. subst r.
        destruct (IH m' K' (Wm' eq_refl) (conj D2 We')) as (I1 & I2). split.
        * rewrite I1. split; intros Q k0 a b E1 E2.
          -- cbn in E2. destruct (sid_key_eqb (ts_id s) k0) eqn:Ek.
             ++ rewrite <- (model_shape_cong _ _ _ Ek) in E1. congruence.
             ++ rewrite <- (Fr k0 Ek) in E1. eauto.
          -- destruct (sid_key_eqb (ts_id s) k0) eqn:Ek.
             ++ rewrite <- (hm_get_cong _ sid_key_equiv _ _ _ Ek) in E2. congruence.
             ++ rewrite (Fr k0 Ek) in E1. apply (Q k0 a b E1). cbn. rewrite Ek. assumption.
        * intros Q. specialize (I2 Q). intros k0. specialize (I2 k0). cbn beta in *. cbn [hm_get].
          destruct (sid_key_eqb (ts_id s) k0) eqn:Ek.
          -- rewrite <- !(model_shape_cong _ _ _ Ek) in I2. rewrite <- !(model_shape_cong _ _ _ Ek).
             rewrite G, <- (hm_get_cong _ sid_key_equiv _ _ _ Ek), Hk in I2. rewrite Ee. assumption.
          -- rewrite (Fr k0 Ek) in I2. exact I2.
  Qed.

  Lemma model_entries_ok m : model_ok m -> entries_ok (m_shapes m).
  Proof.
    intros ((K1 & K2 & K3) & Ws & _). split; [assumption|]. apply Forall_forall. intros [k s] I. cbn.
    destruct (K1 _ _ I) as [-> Hm]. rewrite Forall_forall in Ws. split; [reflexivity|]. split; [apply (Ws _ I)|].
    destruct (sid_member (ts_id s)); [right; apply Hm; discriminate|left; reflexivity].
  Qed.

  Lemma merge_spec m o :
    model_ok m -> model_ok o ->
    (snd (merge m o) = Ok tt <-> models_compatible m o)
    /\ (snd (merge m o) = Ok tt ->
          m_version (fst (merge m o)) = m_version m
          /\ merged_metadata (metadata_value m) (metadata_value o) (metadata_value (fst (merge m o)))
          /\ merged_shapes (model_shape m) (model_shape o) (model_shape (fst (merge m o)))).
  Proof.
    intros Wm Wo. assert (Eo := model_entries_ok o Wo). destruct Wm as (Km & Wms & Wmm), Wo as (Ko & Wos & Wom).
    unfold merge. destruct (m_version o), (m_version m) eqn:Vm. cbn [version_eqb negb].
    destruct (merge_metadata_spec (m_metadata o) m) as (M1 & M2 & M3); auto; [apply Ko|].
    destruct (merge_metadata_shapes (m_metadata o) m) as [S1 S2].
    assert (K1 := merge_metadata_keys_ok (m_metadata o) m Km).
    unfold models_compatible. change (metadata_value o) with (fun k => hm_get str_eqb k (m_metadata o)) at 1.
    destruct (merge_metadata m (m_metadata o)) as [m1 r1]. cbn [fst snd] in *.
    assert (Sh : forall x, model_shape m1 x = model_shape m x) by (intros x; unfold model_shape; rewrite S1; reflexivity).
    assert (Ws1 : Forall (fun e => shape_ok (snd e)) (m_shapes m1)) by (rewrite S1; assumption).
    destruct (merge_shapes_spec (m_shapes o) m1 K1 Ws1 Eo) as (N1 & N2).
    destruct (merge_shapes_metadata (m_shapes o) m1) as [T1 T2].
    destruct r1 as [[]|err|].
    - split.
      + rewrite N1. split.
        * intros Q. split; [apply M1; reflexivity|]. intros k a b E1 E2. rewrite <- Sh in E1. eauto.
        * intros [_ Q] k a b E1 E2. rewrite Sh in E1. eauto.
      + intros R. split; [rewrite T2; congruence|]. split.
        * intros k. specialize (M2 eq_refl k). cbn beta in M2. unfold metadata_value in *. rewrite T1. exact M2.
        * intros k. specialize (N2 R k). cbn beta in N2. rewrite Sh in N2. exact N2.
    - split; [|discriminate]. split; [discriminate|]. intros [Q _]. apply M1 in Q. discriminate.
    - congruence.
  Qed.
End WithHasher.
