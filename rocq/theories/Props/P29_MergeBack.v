(** C63: merging a model with what a round trip makes of it. *)
From Verif.Model Require Import SemModel Json.
From Verif.Spec Require Import ModelSpec ReorderSpec JsonSpec Witness.
From Verif.Proofs Require Import BaseFacts IdentityFacts HashMapFacts ValueFacts ShapeFacts ModelFacts MergeFacts MultiMergeFacts ReorderFacts ReorderEquiv JsonFacts MergeOrderFacts.
From Verif.Props Require Import P02_Model P04_Lines P05_Json.

(** The same model in another order (its lines, its JSON or its Smithy text read again may be one) adds nothing,
    as long as the model has no array and no NaN among its metadata and traits (see C14). *)
Theorem C63_reordered :
  forall (H : Hasher) (m m' : model), model_ok m -> stable_model m -> reorder_model m m' -> merge m m' = (m, Ok tt).
Proof. intros H m m'. apply merge_order. Qed.
Print Assumptions C63_reordered.

(** What of a model JSON keeps in the eyes of [merge]: every trait applied to a shape has a value, and the key and
    the value of every map are members called "member" (in any case). *)
Definition kept_by_json (m : model) : Prop :=
  forall id s, In (id, s) (m_shapes m) ->
    (forall t v, In (t, v) (ts_traits s) -> v <> None)
    /\ (forall k v, ts_body s = KMap k v -> same_name (ms_id k) (lit "member") /\ same_name (ms_id v) (lit "member")).

Lemma json_get {H : Hasher} m id : model_shape (json_image m) id = option_map json_shape (model_shape m id).
Proof.
  unfold model_shape, json_image. cbn. induction (m_shapes m) as [|[k s] l IH]; cbn; [reflexivity|]. destruct (sid_key_eqb k id); [reflexivity|exact IH].
Qed.
Lemma json_trait {H : Hasher} ts t : trait_named t (json_traits ts) = option_map (fun v => Some match v with Some v => v | None => VObject [] end) (trait_named t ts).
Proof.
  unfold trait_named, json_traits. induction ts as [|[k v] l IH]; cbn; [reflexivity|]. destruct (sid_key_eqb k t); [reflexivity|exact IH].
Qed.
Lemma json_same_structure {H : Hasher} b :
  (forall k v, b = KMap k v -> same_name (ms_id k) (lit "member") /\ same_name (ms_id v) (lit "member")) -> same_structure b (json_body b).
Proof.
  intros M.
  assert (X : forall ms : members, same_members ms (map (fun e => (fst e, json_member (snd e))) ms)).
  { intros ms n. unfold su_member. induction ms as [|[k x] l IH]; cbn; [exact I|]. destruct (ident_key_eqb k n); [|exact IH]. split; [apply same_name_refl|apply same_id_refl]. }
  destruct b as [| | |k v| | | | | |]; cbn [json_body]; try apply same_structure_refl; constructor; try apply X; try (split; [apply same_name_refl|apply same_id_refl]).
  - destruct (M _ _ eq_refl). split; [assumption|apply same_id_refl].
  - destruct (M _ _ eq_refl). split; [assumption|apply same_id_refl].
Qed.

(** Merging a model with what is read from its own JSON succeeds exactly then. *)
Theorem C63_json :
  forall (H : Hasher) (m m' : model) (j : json),
    model_writable m -> model_to_json m = Ok j -> read_model j = Ok m' ->
    (snd (merge m m') = Ok tt <-> kept_by_json m).
Proof.
  intros H m m' j W E R. destruct (C26_json_image H m W) as (j0 & m0 & E0 & R0 & O & _). rewrite E in E0. injection E0 as <-. rewrite R in R0. injection R0 as <-.
  assert (C := json_image_clean m W). assert (OK : model_ok m) by apply W.
  assert (OKI : model_ok (json_image m)).
  { destruct C as (K & S & M). split; [exact K|]. split; [eapply Forall_impl; [|exact S]; intros e X; apply X|eapply Forall_impl; [|exact M]; intros e X; apply X]. }
  assert (OK' : model_ok m') by (eapply reorder_model_ok; eassumption).
  rewrite (C12_merge_succeeds_exactly_when_compatible H m m' OK OK').
  assert (GS : forall id, opt_rel reorder_shape (option_map json_shape (model_shape m id)) (model_shape m' id)).
  { intros id. rewrite <- json_get. apply (reordered_get sid_key_eqb sid_key_equiv); [apply C|apply O]. }
  assert (Find : forall id s, In (id, s) (m_shapes m) -> model_shape m id = Some s).
  { intros id s I. apply hm_get_In; [apply sid_key_equiv|apply OK|exact I]. }
  assert (Stored : forall id s, model_shape m id = Some s -> exists k, In (k, s) (m_shapes m)).
  { intros id s G. apply hm_get_Some_In in G as (k & I & _). eauto. }
  assert (Ok1 : forall id s, model_shape m id = Some s -> shape_ok s).
  { intros id s G. destruct (Stored _ _ G) as (k & I). destruct OK as (_ & Ws & _). rewrite Forall_forall in Ws. exact (Ws _ I). }
  assert (Ok2 : forall id s, model_shape m' id = Some s -> shape_ok s).
  { intros id s G. apply hm_get_Some_In in G as (k & I & _). destruct OK' as (_ & Ws & _). rewrite Forall_forall in Ws. exact (Ws _ I). }
  assert (OkJ : forall id s, model_shape m id = Some s -> shape_clean (json_shape s)).
  { intros id s G. destruct (Stored _ _ G) as (k & I). destruct C as (_ & Cs & _). rewrite Forall_forall in Cs.
    refine (Cs (k, json_shape s) _). cbn. apply in_map_iff. exists (k, s). auto. }
  assert (GT : forall id x y t, model_shape m id = Some x -> model_shape m' id = Some y ->
     opt_rel reorder_trait_value (option_map (fun v => Some match v with Some v => v | None => VObject [] end) (trait_named t (ts_traits x))) (trait_named t (ts_traits y))).
  { intros id x y t Gx Gy. specialize (GS id). rewrite Gx, Gy in GS. destruct GS as (_ & RT & _). rewrite <- json_trait.
    apply (reordered_get sid_key_eqb sid_key_equiv); [|exact RT]. apply (OkJ _ _ Gx). }
  split.
  - intros [_ CS] id s I. assert (G := Find _ _ I). pose proof (GS id) as Gs. rewrite G in Gs. destruct (model_shape m' id) as [s'|] eqn:G'; [|destruct Gs]. cbn in Gs.
    destruct (CS id s s' G G') as [CB CT]. split.
    + intros t v It ->. assert (Gt : trait_named t (ts_traits s) = Some None) by (apply hm_get_In; [apply sid_key_equiv|apply (Ok1 _ _ G)|exact It]).
      pose proof (GT id s s' t G G') as Q. rewrite Gt in Q. cbn in Q. destruct (trait_named t (ts_traits s')) as [[w|]|] eqn:Gt'; cbn in Q; try contradiction.
      destruct (CT t _ _ Gt Gt') as (z & CZ). inversion CZ.
    + intros k v B. destruct Gs as (_ & _ & RB). cbn [json_shape ts_body] in RB. rewrite B in *. cbn [json_body] in RB.
      destruct (ts_body s') as [| | |k' v'| | | | | |] eqn:B'; try (inversion RB; fail).
      assert (N : ms_id k' = lit "member" /\ ms_id v' = lit "member").
      { inversion RB as [| |? ? ? ? (E1 & _) (E2 & _)| | | | |]; subst; [cbn in E1, E2; split; symmetry; assumption|split; reflexivity]. }
      destruct N as [N1 N2]. destruct CB as [CB|[CB|CB]]; try discriminate. inversion CB as [| | |? ? ? ? [M1 _] [M2 _]| | | | | |]; subst.
      rewrite N1 in M1. rewrite N2 in M2. auto.
  - intros KJ. split.
    + intros k x y Gx Gy. destruct O as (_ & RM & _). cbn in RM.
      pose proof (reordered_get str_eqb str_eqb_equiv _ _ _ k (proj2 (proj2 (proj1 OK))) RM) as Q. unfold metadata_value in Gx, Gy. rewrite Gx, Gy in Q. cbn in Q.
      apply hm_get_Some_In in Gx as (k' & I & _). destruct C as (_ & _ & Cm). cbn in Cm. rewrite Forall_forall in Cm. destruct (Cm _ I) as [Ov Nv]. cbn in Ov, Nv.
      assert (Ow : value_ok y) by (eapply reorder_value_ok; eassumption).
      assert (SV : same_value x y) by (apply value_eqb_spec; [assumption|assumption|apply reorder_value_eqb; assumption]).
      destruct x; try (eexists; apply cv_equal; [intros [[? ?] _]; discriminate|exact SV]).
      inversion SV; subst. eexists. apply cv_arrays.
    + intros id x y Gx Gy. destruct (Stored _ _ Gx) as (k0 & I0). destruct (KJ _ _ I0) as [KT KM]. split.
      * right; right. apply same_structure_trans with (b := json_body (ts_body x)); [apply json_same_structure, KM|].
        pose proof (GS id) as Gs. rewrite Gx, Gy in Gs. cbn in Gs.
        apply (equal_without_traits_true (json_shape x) y); [apply (OkJ _ _ Gx)|apply (Ok2 _ _ Gy)| |].
        -- destruct Gs as (Ei & _). rewrite Ei. apply same_id_refl.
        -- apply reorder_equal_without_traits; [apply (OkJ _ _ Gx)|exact Gs].
      * intros t u w Gu Gw. pose proof (GT id x y t Gx Gy) as Q. rewrite Gu, Gw in Q. cbn in Q.
        apply hm_get_Some_In in Gu as (t' & It & _). destruct u as [u|]; [|exfalso; exact (KT _ _ It eq_refl)]. destruct w as [w|]; [|destruct Q].
        destruct (OkJ _ _ Gx) as ((To & _) & Tn & _). cbn [json_shape ts_traits] in To, Tn.
        assert (Ij : In (t', Some u) (json_traits (ts_traits x))) by (unfold json_traits; apply in_map_iff; exists (t', Some u); auto).
        destruct To as [_ To]. rewrite Forall_forall in To. destruct (To _ Ij) as [_ Ou]. cbn in Ou.
        unfold traits_nan_free in Tn. rewrite Forall_forall in Tn. specialize (Tn _ Ij). cbn in Tn.
        assert (Ow : value_ok w) by (eapply reorder_value_ok; eassumption).
        assert (SV : same_value u w) by (apply value_eqb_spec; [assumption|assumption|apply reorder_value_eqb; assumption]).
        destruct u; try (eexists; constructor; apply cv_equal; [intros [[? ?] _]; discriminate|exact SV]).
        inversion SV; subst. eexists. constructor. apply cv_arrays.
Qed.
Print Assumptions C63_json.

(** And then it changes nothing (again if there are no arrays: see C14). *)
Theorem C63_json_unchanged :
  forall (H : Hasher) (m m' : model) (j : json),
    model_writable m -> stable_model m -> kept_by_json m -> model_to_json m = Ok j -> read_model j = Ok m' ->
    merge m m' = (m, Ok tt).
Proof.
  intros H m m' j W St KJ E R. destruct (C26_json_image H m W) as (j0 & m0 & E0 & R0 & O & _). rewrite E in E0. injection E0 as <-. rewrite R in R0. injection R0 as <-.
  assert (C := json_image_clean m W). assert (OK : model_ok m) by apply W.
  destruct O as (V & RM & l & P & F). apply merge_mergeable; [exact OK|exact St|exact V|exact RM|].
  cbn [json_image m_shapes] in P. apply Permutation_sym, Permutation_map_inv in P as (l0 & -> & P). exists l0. split; [exact P|].
  assert (I : forall x, In x l0 -> In x (m_shapes m)) by (intros x Ix; eapply Permutation_in; [apply Permutation_sym, P|exact Ix]). clear P.
  destruct C as (_ & Cs & _). cbn in Cs. rewrite Forall_map, Forall_forall in Cs. destruct OK as (_ & Os & _). rewrite Forall_forall in Os.
  revert F. generalize (m_shapes m'). induction l0 as [|[k s] l0 IH]; intros r F; inversion F as [|? [k' t] ? r0 [Ek Rs] F0]; subst; constructor.
  - cbn [fst snd] in Ek, Rs |- *. split; [exact Ek|]. assert (Is : In (k, s) (m_shapes m)) by (apply I; left; reflexivity).
    specialize (Cs _ Is). specialize (Os _ Is). cbn in Cs, Os. destruct (KJ _ _ Is) as [KT KM].
    assert (JT : json_traits (ts_traits s) = ts_traits s).
    { unfold json_traits. rewrite <- (map_id (ts_traits s)) at 2. apply map_ext_in. intros [t0 [v|]] It; [reflexivity|]. exfalso. exact (KT _ _ It eq_refl). }
    assert (Ot : shape_ok t) by (eapply reorder_shape_ok; [apply Cs|exact Rs]). split; [apply Rs|]. split.
    + rewrite <- JT. apply Rs.
    + apply equal_without_traits_true; [apply Os|apply Ot| |].
      * destruct Rs as (Ei & _). cbn in Ei. rewrite Ei. apply same_id_refl.
      * apply same_structure_trans with (b := json_body (ts_body s)); [apply json_same_structure, KM|].
        apply (equal_without_traits_true (json_shape s) t); [apply Cs|apply Ot| |].
        -- destruct Rs as (Ei & _). rewrite Ei. apply same_id_refl.
        -- apply reorder_equal_without_traits; [apply Cs|exact Rs].
  - apply IH; [|exact F0]. intros x Ix. apply I. right. exact Ix.
Qed.
Print Assumptions C63_json_unchanged.

(** The full claim is false: the maps and valueless traits of ordinary models make them conflict with their own JSON. *)
Definition C63_full : Prop :=
  forall (H : Hasher) (m m' : model) (j : json),
    model_writable m -> stable_model m -> model_to_json m = Ok j -> read_model j = Ok m' -> merge m m' = (m, Ok tt).
Theorem C63_full_refuted :
  ~ C63_full
  /\ (exists j m', model_to_json map_model = Ok j /\ read_model (H := byte_hasher) j = Ok m'
        /\ snd (@merge byte_hasher map_model m') = Err (EMergeShapeConflict (ex_id "Dict")))
  /\ (exists j m', model_to_json trait_model = Ok j /\ read_model (H := byte_hasher) j = Ok m'
        /\ snd (@merge byte_hasher trait_model m') = Err (EMergeTraitConflict (api_id "sensitive"))).
Proof.
  split; [|split].
  - intros C. assert (X : exists j m', model_to_json trait_model = Ok j /\ read_model (H := byte_hasher) j = Ok m' /\ snd (@merge byte_hasher trait_model m') <> Ok tt).
    { eexists. eexists. split; [vm_compute; reflexivity|]. split; [vm_compute; reflexivity|vm_compute; discriminate]. }
    destruct X as (j & m' & E & R & N). apply N. rewrite (C byte_hasher trait_model m' j); auto.
    + split; [solve_model_ok trait_model|]. split; cbn; solve_writable.
    + split; [constructor|]. repeat constructor.
  - eexists. eexists. split; [vm_compute; reflexivity|]. split; [vm_compute; reflexivity|vm_compute; reflexivity].
  - eexists. eexists. split; [vm_compute; reflexivity|]. split; [vm_compute; reflexivity|vm_compute; reflexivity].
Qed.
Print Assumptions C63_full_refuted.

Example C63_ex :
  model_writable (H := byte_hasher) motd_more /\ stable_model motd_more /\ kept_by_json motd_more
  /\ length (m_shapes motd_more) = 8
  /\ @model_ok zero_hasher motd /\ stable_model motd /\ reorder_model motd motd_backwards /\ motd <> motd_backwards.
Proof.
  destruct C26_ex as (W & F & _ & _). split; [exact W|].
  assert (SV : forall v, nan_free v -> (forall l, v = VArray l -> l = []) -> merge_stable v) by (intros v N A; split; [apply same_value_refl, N|exact A]).
  assert (X : forall m, json_faithful m -> kept_by_json m).
  { intros m Fm id s I. unfold json_faithful in Fm. rewrite Forall_forall in Fm. destruct (Fm _ I) as (V & M & _). cbn in V, M. split.
    - intros t v It. unfold traits_valued in V. rewrite Forall_forall in V. exact (V _ It).
    - intros k v E. exfalso. eapply M, E. }
  split.
  - split; cbn; repeat (apply Forall_cons || apply Forall_nil); cbn; unfold stable_traits; repeat (apply Forall_cons || apply Forall_nil); cbn; try exact I;
      apply SV; try discriminate; repeat constructor.
  - split; [apply X, F|]. split; [reflexivity|]. split; [solve_model_ok motd|]. split; [|apply C23_ex].
    split; cbn; repeat (apply Forall_cons || apply Forall_nil); cbn; unfold stable_traits; repeat (apply Forall_cons || apply Forall_nil); cbn; try exact I;
      apply SV; try discriminate; repeat constructor.
Qed.
